(** * CursorProofs: C22-C27 *)
From Coq Require Import Strings.String.
From Verif Require Import Base Serde Codec Universe Spec SerdeFacts CodecFacts UniverseFacts Packet Client PacketFacts CodecProofs.
Open Scope nat_scope.

(** C22. No bytes whatsoever make [next_payload] panic, for types without authentication payload. *)
Lemma p_C22_no_panic :
  forall (t : ty) (p : list byte) (i : nat),
    has_auth t = false -> i <= length p ->
    (exists j v, next_payload t (Deserializer (Packet p) i) = (Deserializer (Packet p) j, Ok v)) \/
    (exists e, next_payload t (Deserializer (Packet p) i) = (Deserializer (Packet p) i, Err e)).
Proof.
  intros t p i Ha Hi. rewrite next_payload_eq by assumption.
  destruct (de t (skipn i p)) as [[v r]|e|q] eqn:E.
  - left. now do 2 eexists.
  - right. now eexists.
  - exfalso. exact (f_no_panic t (facts_of t) _ _ Ha E).
Qed.
(** C22. Only the cursor condition matters: beyond the end every read panics. *)
Lemma p_C22_cursor_beyond_end_panics :
  forall (t : ty) (p : list byte) (i : nat),
    length p < i ->
    snd (next_payload t (Deserializer (Packet p) i)) = Panic PSliceIndex /\
    peek_header (Deserializer (Packet p) i) = Panic PSliceIndex.
Proof.
  intros t p i Hi. split; [now rewrite next_payload_panic|now apply peek_header_panic].
Qed.
Example ex_C22_garbage :
  has_auth example_ty = false /\
  snd (next_payload example_ty (Deserializer (Packet (repeat xff 40)) 3)) = Err EEof /\
  snd (next_payload (TStruct (FCons TVecU8 FNil)) (Deserializer (Packet (repeat xff 40)) 3)) = Err EEof.
Proof. now vm_compute. Qed.

(** ** Authentication payloads *)

(** The announced key blob is there in full. *)
Definition blob_present (p : list byte) (i : nat) : Prop :=
  i + 2 <= length p /\ i + 2 + N.to_nat (u16_at p i) <= length p.

Lemma auth_cases p i :
  i <= length p ->
  let d := Deserializer (Packet p) i in
  let n := N.to_nat (u16_at p i) in
  let blob := firstn n (skipn (i + 2) p) in
  (~ blob_present p i /\ next_payload TBinMember d = (d, Err EEof)) \/
  (blob_present p i /\ length blob = n /\
   next_payload TBinMember d =
     match auth_of_contents blob with
     | Ok v => (Deserializer (Packet p) (i + 76), Ok v)
     | Err e => (d, Err e)
     | Panic q => (d, Panic q)
     end).
Proof.
  intros Hi d n blob. unfold d. rewrite next_payload_eq by assumption. cbn [de].
  rewrite de_bin_member_blob. unfold de_blob, blob_present.
  rewrite skipn_length.
  destruct (Nat.ltb_spec (length p - i) 2) as [L|L].
  { left. split; [lia|reflexivity]. }
  rewrite <- u16_at_value, skipn_skipn', skipn_length by lia.
  destruct (N.ltb_spec (N.of_nat (length p - (i + 2))) (u16_at p i)) as [L2|L2].
  { left. split; [lia|reflexivity]. }
  right. split; [lia|]. split.
  { unfold blob. rewrite firstn_length, skipn_length. lia. }
  cbn [bind]. fold n. fold blob.
  destruct (auth_of_contents blob) as [v|e|q] eqn:A; cbn [bind]; try reflexivity.
  destruct (auth_of_contents_ok _ _ A) as (H & _ & ->). cbn [layout]. rewrite auth_layout_length; [reflexivity|].
  cbn [in_range bm_public_key_bin bm_encryption_key_bin]. rewrite !firstn_length, !skipn_length. lia.
Qed.

Lemma firstn_sub {A} (l : list A) n a k : a + k <= n -> firstn k (skipn a (firstn n l)) = firstn k (skipn a l).
Proof.
  intros H. rewrite skipn_firstn_comm, firstn_firstn. f_equal. lia.
Qed.

(** C23. Reading an authentication payload, for every input: an error when the announced key blob is
    incomplete or has the wrong prefix, the keys at their fixed places when it has at least 74 bytes and
    the right prefix, and a panic otherwise. *)
Lemma p_C23_auth_exact :
  forall (p : list byte) (i : nat),
    i <= length p ->
    let d := Deserializer (Packet p) i in
    let n := N.to_nat (u16_at p i) in
    (~ (i + 2 <= length p /\ i + 2 + n <= length p) -> next_payload TBinMember d = (d, Err EEof)) /\
    (i + 2 <= length p /\ i + 2 + n <= length p ->
       (n < 10 -> next_payload TBinMember d = (d, Panic PSliceIndex)) /\
       (10 <= n -> firstn 10 (skipn (i + 2) p) <> ascii "LibNaCLPK:" ->
          exists m, next_payload TBinMember d = (d, Err (ECustom m))) /\
       (10 <= n < 74 -> firstn 10 (skipn (i + 2) p) = ascii "LibNaCLPK:" ->
          next_payload TBinMember d = (d, Panic PSliceIndex)) /\
       (74 <= n -> firstn 10 (skipn (i + 2) p) = ascii "LibNaCLPK:" ->
          next_payload TBinMember d =
            (Deserializer (Packet p) (i + 76),
             Ok {| bm_public_key_bin := firstn 32 (skipn (i + 44) p);
                   bm_encryption_key_bin := firstn 32 (skipn (i + 12) p) |}))).
Proof.
  intros p i Hi d n.
  destruct (auth_cases p i Hi) as [[NB E]|(B & L & E)]; fold d in E.
  - split; [intros _; exact E|]. intros B. now contradiction NB.
  - split; [intros NB; now contradiction NB|]. intros _.
    fold n in E, L. rewrite E. clear E. rewrite <- libnacl_ascii. unfold auth_of_contents.
    rewrite L. repeat split.
    + intros H. apply Nat.ltb_lt in H. now rewrite H.
    + intros H P. apply Nat.ltb_ge in H as H'. rewrite H'.
      rewrite firstn_firstn. replace (Nat.min 10 n) with 10 by lia.
      destruct (bytes_eqb _ _) eqn:Q; [apply bytes_eqb_eq in Q; contradiction|].
      cbn [negb]. now eexists.
    + intros [H1 H2] P. apply Nat.ltb_ge in H1 as H'. rewrite H'.
      rewrite firstn_firstn. replace (Nat.min 10 n) with 10 by lia.
      rewrite P. destruct (bytes_eqb _ _) eqn:Q; [|apply not_true_iff_false in Q; now contradiction Q; apply bytes_eqb_eq].
      cbn [negb]. apply Nat.ltb_lt in H2. now rewrite H2.
    + intros H1 P. replace (n <? 10) with false by (symmetry; apply Nat.ltb_ge; lia).
      rewrite firstn_firstn. replace (Nat.min 10 n) with 10 by lia.
      rewrite P. destruct (bytes_eqb _ _) eqn:Q; [|apply not_true_iff_false in Q; now contradiction Q; apply bytes_eqb_eq].
      cbn [negb]. replace (n <? 74) with false by (symmetry; apply Nat.ltb_ge; lia).
      rewrite !firstn_sub by lia. rewrite !skipn_skipn'.
      replace (i + 2 + 42) with (i + 44) by lia. now replace (i + 2 + 10) with (i + 12) by lia.
Qed.
(** C23. Hence a packet of two bytes crashes the reader: rejection without crashing is refuted. *)
Lemma p_C23_no_panic_refuted :
  exists p, length p = 2 /\ snd (next_payload TBinMember (start_deserialize (Packet p))) = Panic PSliceIndex.
Proof. exists [x00; x00]. now vm_compute. Qed.
Example ex_C23_each_case :
  let blob n := u16_bytes (N.of_nat n) ++ ascii "LibNaCLPK:" ++ repeat x07 (n - 10) in
  snd (next_payload TBinMember (start_deserialize (Packet (blob 73)))) = Panic PSliceIndex /\
  snd (next_payload TBinMember (start_deserialize (Packet (blob 74)))) = Ok (BinMember (repeat x07 32) (repeat x07 32)) /\
  snd (next_payload TBinMember (start_deserialize (Packet (removelast (blob 74))))) = Err EEof.
Proof. now vm_compute. Qed.

(** C24. A failed (or panicking) read changes neither packet nor cursor. *)
Lemma p_C24_failed_read_no_effect :
  forall (t : ty) (d d' : deserializer) (r : outcome (tval t)),
    next_payload t d = (d', r) -> is_ok r = false -> d' = d.
Proof.
  intros t d d' r H Hr. unfold next_payload in H.
  match type of H with match ?x with _ => _ end = _ => destruct x as [[v n]|e|q] end;
    injection H as <- <-; [discriminate Hr|reflexivity|reflexivity].
Qed.
Lemma p_C24_failed_pop_no_effect :
  forall (d d' : deserializer) (r : outcome header),
    pop_header d = (d', r) -> is_ok r = false -> d' = d.
Proof.
  intros d d' r H Hr. unfold pop_header in H.
  destruct (peek_header d); injection H as <- <-; [discriminate Hr|reflexivity|reflexivity].
Qed.
(** C24. So after a failed read any other type can be tried as if nothing had happened. *)
Lemma p_C24_retry :
  forall (t t' : ty) (d d' : deserializer) (e : error),
    next_payload t d = (d', Err e) -> next_payload t' d' = next_payload t' d.
Proof.
  intros t t' d d' e H. now rewrite (p_C24_failed_read_no_effect t d d' _ H eq_refl).
Qed.
Example ex_C24_retry :
  let d := start_deserialize (Packet [x00; x02; x05; x06]) in
  exists e, next_payload TTime d = (d, Err e) /\ snd (next_payload TVarLen16 d) = Ok (VarLen16 [x05; x06]).
Proof. eexists. now vm_compute. Qed.

(** ** How far the cursor moves *)

(** C25. The new cursor is exactly the end of what determines the result: cutting the packet there gives
    the same result, cutting it anywhere earlier is an error. *)
Lemma p_C25_cursor_exact :
  forall (t : ty) (p : list byte) (i j : nat) (v : tval t),
    self_delimiting t = true -> has_auth t = false -> i <= length p ->
    next_payload t (Deserializer (Packet p) i) = (Deserializer (Packet p) j, Ok v) ->
    i <= j <= length p /\
    next_payload t (Deserializer (Packet (firstn j p)) i) = (Deserializer (Packet (firstn j p)) j, Ok v) /\
    forall k, i <= k < j ->
      exists e, next_payload t (Deserializer (Packet (firstn k p)) i) = (Deserializer (Packet (firstn k p)) i, Err e).
Proof.
  intros t p i j v Hs Ha Hi H.
  destruct (next_payload_consumes t p i j v Hi H) as (c & r & Hc & Hd & Hj & _ & _ & _ & _ & A & _ & S).
  specialize (A Ha). specialize (S Hs).
  assert (L : length c + length r = length p - i) by (rewrite <- skipn_length, Hc, app_length; lia).
  split; [lia|]. split.
  - apply (p_C10_only_consumed_bytes_matter t p); try assumption.
    rewrite firstn_firstn. now rewrite Nat.min_id.
  - intros k Hk. rewrite next_payload_eq by (rewrite firstn_length; lia).
    assert (E : skipn i (firstn k p) = firstn (k - i) c).
    { rewrite skipn_firstn_comm, Hc, firstn_app. replace (k - i - length c) with 0 by lia.
      now rewrite firstn_O, app_nil_r. }
    rewrite E. destruct (prefix_err t c v (k - i) Hs) as [e ->].
    + rewrite <- (app_nil_r c). apply S.
    + lia.
    + now exists e.
Qed.

Lemma de_raw_end :
  (forall t b v r, ends_in_raw t = true -> fits_memory b ->
     de t b = Ok (v, r) -> r = []) /\
  (forall fs b v r, end_in_raw fs = true -> fits_memory b ->
     des_plain fs b = Ok (v, r) -> r = []).
Proof.
  apply ty_tys_ind; try (intros b v r H; discriminate H); try (intros t IH b v r H; discriminate H).
  - (* RawEnd *)
    intros b v r _ Hf H. cbn [de] in H. rewrite de_rawend_any in H. injection H as _ <-.
    rewrite usize_cap_fits by assumption. apply skipn_all.
  - (* IntroductionRequest *)
    intros b v r _ Hf H. cbn [de] in H. rewrite de_introduction_request_any in H.
    destruct (_ <? _); [discriminate|]. rewrite request_any_fits in H by assumption. now injection H.
  - intros b v r _ Hf H. cbn [de] in H. rewrite de_introduction_response_any in H.
    destruct (_ <? _); [discriminate|]. rewrite response_any_fits in H by assumption. now injection H.
  - intros fs IH b v r H2 Hf H. rewrite de_struct in H. eapply IH; eassumption.
  - intros t IHt fs IHfs b [x xs] r H2 Hf H. cbn [des_plain] in H.
    destruct (de t b) as [[x' r1]| |] eqn:E; try discriminate. cbn [bind] in H.
    destruct (des_plain fs r1) as [[xs' r2]| |] eqn:E2; try discriminate. cbn [bind] in H.
    assert (r2 = r) by congruence. subst r2.
    cbn [end_in_raw] in *.
    assert (Hf1 : fits_memory r1).
    { destruct (f_ok t (facts_of t) _ _ _ E) as (c & -> & _). unfold fits_memory, len in *.
      rewrite app_length in Hf. lia. }
    destruct fs as [|t2 fs2].
    + cbn [des_plain] in E2. assert (r1 = r) by congruence. subst r1. exact (IHt b x' r H2 Hf E).
    + apply andb_true_iff in H2 as [H2 H3].
      exact (IHfs r1 xs' r H3 Hf1 E2).
Qed.
(** C25. A type ending in raw bytes takes everything up to the end of the packet. *)
Lemma p_C25_raw_tail_reaches_end :
  forall (t : ty) (p : list byte) (i j : nat) (v : tval t),
    ends_in_raw t = true -> has_auth t = false ->
    i <= length p -> fits_memory p ->
    next_payload t (Deserializer (Packet p) i) = (Deserializer (Packet p) j, Ok v) ->
    j = length p.
Proof.
  intros t p i j v Hr Ha Hi Hf H.
  destruct (next_payload_consumes t p i j v Hi H) as (c & r & Hc & Hd & -> & _ & _ & _ & _ & A & _ & _).
  rewrite (A Ha). apply (proj1 de_raw_end) in Hd; [|assumption|now apply fits_memory_skipn].
  subst r. apply (f_equal (@length byte)) in Hc. rewrite skipn_length, app_length in Hc. cbn in Hc. lia.
Qed.
(** C25. For an authentication payload the cursor moves by 76 whatever the length n >= 74 of the key
    blob is, although all 2 + n bytes must be present. *)
Lemma p_C25_auth_cursor :
  forall (p : list byte) (i j : nat) (v : bin_member),
    i <= length p ->
    next_payload TBinMember (Deserializer (Packet p) i) = (Deserializer (Packet p) j, Ok v) ->
    let blob_end := i + 2 + N.to_nat (u16_at p i) in
    j = i + 76 /\ j <= blob_end <= length p /\ (j = blob_end <-> u16_at p i = 74%N) /\
    forall k, i <= k < blob_end ->
      exists e, next_payload TBinMember (Deserializer (Packet (firstn k p)) i) =
                (Deserializer (Packet (firstn k p)) i, Err e).
Proof.
  intros p i j v Hi H blob_end.
  destruct (auth_cases p i Hi) as [[NB E]|([B1 B2] & L & E)]; [rewrite E in H; discriminate H|].
  rewrite E in H. clear E.
  destruct (auth_of_contents _) as [v'| |] eqn:A; try discriminate H. injection H as <- <-.
  destruct (auth_of_contents_ok _ _ A) as (Hn & _).
  unfold blob_end. split; [reflexivity|]. split; [lia|]. split; [lia|].
  intros k Hk.
  destruct (auth_cases (firstn k p) i) as [[NB E]|([C1 C2] & _)]; [rewrite firstn_length; lia|eauto|].
  exfalso. rewrite firstn_length in C1, C2.
  assert (U : u16_at (firstn k p) i = u16_at p i).
  { unfold u16_at, n_at, byte_at. rewrite <- (firstn_skipn k p) at 3 4.
    rewrite !app_nth1 by (rewrite firstn_length; lia). reflexivity. }
  rewrite U in C2. lia.
Qed.
(** C25. So "the cursor is behind the payload" is refuted for key blobs of 75 bytes: the next read starts
    inside the blob. *)
Lemma p_C25_auth_cursor_refuted :
  exists (p : list byte) (d : deserializer) (v : bin_member),
    next_payload TBinMember (start_deserialize (Packet p)) = (d, Ok v) /\
    length p = 77 /\ index d = 76 /\ snd (next_payload TU8 d) = Ok x63.
Proof.
  exists (u16_bytes 75 ++ ascii "LibNaCLPK:" ++ repeat x07 64 ++ [x63]).
  do 2 eexists. split; [vm_compute; reflexivity|]. now vm_compute.
Qed.
Example ex_C25_struct :
  exists v, next_payload example_ty (Deserializer (fst (packet_add example_ty (Packet [xaa]) example_val)) 1)
            = (Deserializer (fst (packet_add example_ty (Packet [xaa]) example_val)) 23, Ok v).
Proof. eexists. vm_compute. reflexivity. Qed.

(** ** Histories of reads *)

Lemma read_step C p i o :
  is_read o = true -> i <= length p ->
  exists j, i <= j <= length p /\ fst (do_op C (Deserializer (Packet p) i) o) = Deserializer (Packet p) j /\
            (reads_auth o = false -> forall q, snd (do_op C (Deserializer (Packet p) i) o) <> Panic q).
Proof.
  intros Ho Hi. destruct o as [| |t| |]; try discriminate Ho; cbn [do_op].
  - exists i. split; [lia|]. split; [reflexivity|]. intros _ q. cbn [snd].
    destruct (header_prefix_ok (skipn i p)) eqn:E.
    + rewrite peek_header_ok by assumption. discriminate.
    + destruct (peek_header_err p i Hi E) as [e ->]. discriminate.
  - unfold pop_header. destruct (header_prefix_ok (skipn i p)) eqn:E.
    + rewrite peek_header_ok by assumption. apply header_prefix_ok_iff in E as (H & _).
      exists (i + 23). cbn. repeat split; try lia. discriminate.
    + destruct (peek_header_err p i Hi E) as [e ->]. exists i. cbn. repeat split; try lia. discriminate.
  - destruct (next_payload_cursor t p i Hi) as (j & Hj & Ej).
    exists j. destruct (next_payload t _) as [d r] eqn:E. cbn [fst] in Ej. subst d. cbn [fst snd].
    split; [assumption|]. split; [reflexivity|]. intros Ha q Hq.
    destruct (p_C22_no_panic t p i Ha Hi) as [(j' & v & P)|(e & P)]; rewrite P in E;
      injection E as _ <-; discriminate Hq.
Qed.

(** C26. Over any history of reads the packet stays the same, the cursor never goes back nor past the
    end, and only reads of authentication payloads can panic. *)
Lemma p_C26_read_histories :
  forall (C : ed25519) (l : list op) (p : packet) (i : nat) (d : deserializer) (rs : list (outcome unit)),
    Forall (fun o => is_read o = true) l -> i <= length (packet_raw p) ->
    do_ops C {| pntr := p; index := i |} l = (d, rs) ->
    pntr d = p /\ i <= index d <= length (packet_raw p) /\ length rs = length l /\
    (Forall (fun o => reads_auth o = false) l -> Forall (fun r => forall q, r <> Panic q) rs).
Proof.
  intros C l. induction l as [|o l IH]; intros [p] i d rs Hl Hi H.
  - cbn in H. injection H as <- <-. cbn. repeat split; auto.
  - inversion Hl as [|? ? Ho Hl']; subst. unfold packet_raw in *. cbn [packet_bytes] in *. cbn [do_ops] in H.
    destruct (read_step C p i o Ho Hi) as (j & Hj & E & P).
    destruct (do_op C _ o) as [d1 x]. cbn [fst snd] in *. subst d1.
    destruct (do_ops C _ l) as [d2 xs] eqn:F. injection H as <- <-.
    destruct (IH (Packet p) j d2 xs Hl' (proj2 Hj) F) as (I1 & I2 & I3 & I4).
    cbn [packet_bytes] in I2. repeat split; try assumption; try lia.
    + cbn. now rewrite I3.
    + intros Hn. inversion Hn as [|? ? Hn1 Hn2]; subst. constructor; [now apply P|now apply I4].
Qed.
Example ex_C26_history :
  let p := fst (packet_add TTime (Packet (header_layout (repeat x2a 20) x01)) (TimeDistribution 5%N)) in
  forall C, do_ops C (start_deserialize p) [OPeek; ONext TIntroductionResponse; OPop; ONext TU64; ONext TU8]
            = (Deserializer p 31, [Ok tt; Err EEof; Ok tt; Ok tt; Err EEof]).
Proof. intros p C. vm_compute. reflexivity. Qed.

(** C27. A decoded value takes no more bytes when written again than there were left to read. *)
Lemma p_C27_no_amplification :
  forall (t : ty) (p : list byte) (i : nat) (d : deserializer) (v : tval t) (q : packet),
    i <= length p ->
    next_payload t (Deserializer (Packet p) i) = (d, Ok v) ->
    exists more, packet_add t q v = (Packet (packet_raw q ++ more), Ok tt) /\
      length more <= length p - i /\ index d = i + length more.
Proof.
  intros t p i d v q Hi H.
  destruct (next_payload_cursor t p i Hi) as (j & Hj & Ej). rewrite H in Ej. cbn [fst] in Ej. subst d.
  destruct (next_payload_consumes t p i j v Hi H) as (c & r & Hc & _ & -> & L & R & N & _).
  exists (layout t v). rewrite packet_add_ok by assumption. split; [reflexivity|].
  split; [|reflexivity].
  apply (f_equal (@length byte)) in Hc. rewrite skipn_length, app_length in Hc. lia.
Qed.
Example ex_C27_announced_more :
  snd (next_payload TVarLen64 (start_deserialize (Packet (repeat xff 8 ++ [x01])))) = Err EEof /\
  snd (next_payload TVarLen64 (start_deserialize (Packet (repeat x00 7 ++ [x01; x09])))) = Ok (VarLen64 [x09]).
Proof. now vm_compute. Qed.
