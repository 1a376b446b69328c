(** * FieldProofs: C74-C78, C95, C96 *)
From Coq Require Import Strings.String.
From Verif Require Import Base Serde Codec Universe Spec SerdeFacts CodecFacts Utf8Facts UniverseFacts Packet Client PacketFacts.
Open Scope nat_scope.

Lemma skipn_byte (p : list byte) i : i < length p -> skipn i p = byte_at p i :: skipn (i + 1) p.
Proof.
  revert i. induction p as [|x p IH]; intros [|i] H; cbn in H; try lia.
  - reflexivity.
  - cbn [skipn]. rewrite IH by lia. reflexivity.
Qed.
Lemma u64_at_skipn p i : i + 8 <= length p -> be_value (firstn 8 (skipn i p)) = u64_at p i.
Proof. intros H. now rewrite u64_at_value. Qed.

(** ** C74: strings *)

(** C74. A String is read exactly when an 8-byte length, that many bytes, and these bytes well-formed UTF-8
    are there; then it consists of exactly those bytes. Missing bytes are "unexpected end", wrong ones "invalid UTF-8". *)
Lemma p_C74_string_exact :
  forall (p : list byte) (i : nat),
    i <= length p ->
    let n := N.to_nat (u64_at p i) in
    let s := firstn n (skipn (i + 8) p) in
    (i + 8 + n <= length p -> is_utf8 s ->
       next_payload TString (Deserializer (Packet p) i) = (Deserializer (Packet p) (i + 8 + n), Ok s)) /\
    (length p < i + 8 + n ->
       next_payload TString (Deserializer (Packet p) i) = (Deserializer (Packet p) i, Err EEof)) /\
    (i + 8 + n <= length p -> ~ is_utf8 s ->
       next_payload TString (Deserializer (Packet p) i) = (Deserializer (Packet p) i, Err EInvalidUtf8)).
Proof.
  intros p i Hi n s. rewrite next_payload_eq by assumption. cbn [de]. rewrite de_string_blob.
  unfold de_blob. rewrite skipn_length.
  destruct (Nat.ltb_spec (length p - i) 8) as [H8|H8].
  { cbn [bind]. split; [intros H; lia|]. split; [reflexivity|intros; lia]. }
  rewrite u64_at_skipn, skipn_skipn', skipn_length by lia. fold n.
 
  destruct (N.ltb_spec (N.of_nat (length p - (i + 8))) (u64_at p i)) as [Hn|Hn].
  { cbn [bind]. split; [intros H; unfold n in H; lia|]. split; [reflexivity|intros H; unfold n in H; lia]. }
  cbn [bind]. fold n. fold s. destruct (utf8_valid s) eqn:U.
  - assert (L : length s = n) by (unfold s; rewrite firstn_length, skipn_length; unfold n; lia).
    split.
    + intros _ _. cbn [layout]. rewrite <- be8, app_length, be_length, L.
      now replace (i + (8 + n)) with (i + 8 + n) by lia.
    + split; [intros H; unfold n in H; lia|]. intros _ H. now apply utf8_valid_iff in U.
  - split.
    + intros _ H. apply utf8_valid_iff in H. congruence.
    + split; [intros H; unfold n in H; lia|reflexivity].
Qed.
(** "h\u00e9\u20ac\U0001F600" *)
Example ex_C74_string :
  let s := bs [0x68; 0xC3; 0xA9; 0xE2; 0x82; 0xAC; 0xF0; 0x9F; 0x98; 0x80]%N in
  is_utf8 s /\
  snd (next_payload TString (start_deserialize (Packet (u64_bytes 10 ++ s ++ [xff])))) = Ok s /\
  (* cut inside the last character *)
  snd (next_payload TString (start_deserialize (Packet (u64_bytes 9 ++ s)))) = Err EInvalidUtf8 /\
  (* a surrogate, an overlong '/', a stray continuation byte *)
  snd (next_payload TString (start_deserialize (Packet (u64_bytes 3 ++ bs [0xED; 0xA0; 0x80]%N)))) = Err EInvalidUtf8 /\
  snd (next_payload TString (start_deserialize (Packet (u64_bytes 2 ++ bs [0xC0; 0xAF]%N)))) = Err EInvalidUtf8 /\
  snd (next_payload TString (start_deserialize (Packet (u64_bytes 1 ++ bs [0x80]%N)))) = Err EInvalidUtf8.
Proof.
  split; [|now vm_compute]. exists [0x68; 0xE9; 0x20AC; 0x1F600]%N. split; [|reflexivity].
  repeat constructor; unfold is_scalar; lia.
Qed.

(** ** C75: tags *)

(** C75. A bool is one byte, 0 or 1; every other byte is an "invalid bool". *)
Lemma p_C75_bool_exact :
  forall (p : list byte) (i : nat),
    i < length p ->
    (byte_at p i = x00 ->
       next_payload TBool (Deserializer (Packet p) i) = (Deserializer (Packet p) (i + 1), Ok false)) /\
    (byte_at p i = x01 ->
       next_payload TBool (Deserializer (Packet p) i) = (Deserializer (Packet p) (i + 1), Ok true)) /\
    (byte_at p i <> x00 -> byte_at p i <> x01 ->
       next_payload TBool (Deserializer (Packet p) i) = (Deserializer (Packet p) i, Err EInvalidBool)).
Proof.
  intros p i Hi. rewrite next_payload_eq by lia. cbn [de]. rewrite skipn_byte by assumption.
  rewrite de_bool_eq. repeat split.
  - now intros ->.
  - now intros ->.
  - intros H0 H1. destruct (byte_at p i); try reflexivity; contradiction.
Qed.

(** C75. [Option<T>]: byte 0 is [None], byte 1 is [Some] of what reading a [T] from the next position gives,
    every other byte is an "invalid tag". *)
Lemma p_C75_option_exact :
  forall (t : ty) (p : list byte) (i : nat),
    i < length p ->
    let d := Deserializer (Packet p) i in
    (byte_at p i = x00 -> next_payload (TOption t) d = (Deserializer (Packet p) (i + 1), Ok None)) /\
    (byte_at p i = x01 ->
       next_payload (TOption t) d = or_stay d Some (next_payload t (Deserializer (Packet p) (i + 1)))) /\
    (byte_at p i <> x00 -> byte_at p i <> x01 -> next_payload (TOption t) d = (d, Err EInvalidTag)).
Proof.
  intros t p i Hi d. unfold d. rewrite next_payload_eq by lia. cbn [de].
  rewrite skipn_byte by assumption. unfold de_option. repeat split.
  - now intros ->.
  - intros ->. rewrite next_payload_eq by lia. cbn [de_u8 bind].
    destruct (de t (skipn (i + 1) p)) as [[v r]| |] eqn:E; cbn [bind or_stay]; try reflexivity.
    cbn [layout length]. now replace (i + S (length (layout t v))) with (i + 1 + length (layout t v)) by lia.
  - intros H0 H1. cbn [de_u8 bind]. destruct (byte_at p i); try reflexivity; contradiction.
Qed.

Lemma u32_at_value b i : (i + 4 <= length b)%nat -> u32_at b i = be_value (firstn 4 (skipn i b)).
Proof.
  intros H. rewrite (skipn_byte b i), (skipn_byte b (i + 1)), (skipn_byte b (i + 1 + 1)), (skipn_byte b (i + 1 + 1 + 1)) by lia.
  cbn [firstn]. unfold u32_at, n_at. rewrite <- !Nat.add_assoc. cbn [Nat.add].
  unfold be_value. cbn [fold_left]. lia.
Qed.
Lemma dealts_variant vs : forall n b,
  match variant vs (N.to_nat n) with
  | None => dealts vs n b = Err (ECustom "invalid value: variant index")
  | Some (existT _ t f) =>
      dealts vs n b = match de t b with Ok (x, r) => Ok (f x, r) | Err e => Err e | Panic q => Panic q end /\
      forall x, variant_layout vs (f x) = layout t x
  end.
Proof.
  induction vs as [|t vs IH]; intros n b; cbn [variant dealts].
  - reflexivity.
  - destruct (N.eqb_spec n 0) as [->|H].
    + cbn [N.to_nat]. split; [|reflexivity]. now destruct (de t b) as [[x r]| |].
    + destruct (N.to_nat n) as [|k] eqn:E; [lia|].
      specialize (IH (N.pred n) b). replace (N.to_nat (N.pred n)) with k in IH by lia.
      destruct (variant vs k) as [[u f]|].
      * destruct IH as [-> HL]. split; [|exact HL]. now destruct (de u b) as [[x r]| |].
      * now rewrite IH.
Qed.

(** C75. An enum: a 4-byte index. If the enum has that many variants, the content of that variant is read
    from the position behind it; an index out of range is an [Err]. *)
Lemma p_C75_enum_exact :
  forall (vs : tys) (p : list byte) (i : nat),
    i + 4 <= length p ->
    let d := Deserializer (Packet p) i in
    match variant vs (N.to_nat (u32_at p i)) with
    | Some (existT _ t f) =>
        next_payload (TEnum vs) d = or_stay d f (next_payload t (Deserializer (Packet p) (i + 4)))
    | None => next_payload (TEnum vs) d = (d, Err (ECustom "invalid value: variant index"))
    end.
Proof.
  intros vs p i Hi d. unfold d. rewrite next_payload_eq by lia. cbn [de].
  unfold de_u32, de_uint. rewrite skipn_length.
  destruct (Nat.ltb_spec (length p - i) 4) as [H|_]; [lia|]. cbn [bind].
  rewrite <- u32_at_value, skipn_skipn' by lia.
  pose proof (dealts_variant vs (u32_at p i) (skipn (i + 4) p)) as D.
  destruct (variant vs (N.to_nat (u32_at p i))) as [[t f]|].
  - destruct D as [-> HL]. rewrite next_payload_eq by lia.
    destruct (de t (skipn (i + 4) p)) as [[v r]| |] eqn:E; cbn [or_stay]; try reflexivity.
    cbn [layout]. rewrite HL, app_length. cbn [length u32_bytes bs map].
    now replace (i + (4 + length (layout t v))) with (i + 4 + length (layout t v)) by lia.
  - now rewrite D.
Qed.
(** enum { A, B(u16), C { x : bool, y : Option<i8> } } *)
Definition enum_ty : ty :=
  TEnum (FCons (TStruct FNil) (FCons TU16 (FCons (TStruct (FCons TBool (FCons (TOption TI8) FNil))) FNil))).
Example ex_C75_enum :
  snd (next_payload enum_ty (start_deserialize (Packet (bs [0; 0; 0; 2; 1; 1; 0xFE]%N)))) =
    Ok (inr (inr (inl (true, (Some (-2)%Z, tt))))) /\
  snd (next_payload enum_ty (start_deserialize (Packet (bs [0; 0; 0; 1; 1; 2]%N)))) = Ok (inr (inl 258%N)) /\
  snd (next_payload enum_ty (start_deserialize (Packet (bs [0; 0; 0; 0]%N)))) = Ok (inl tt) /\
  is_ok (snd (next_payload enum_ty (start_deserialize (Packet (bs [0; 0; 0; 3; 0; 0]%N))))) = false /\
  snd (next_payload enum_ty (start_deserialize (Packet (bs [0; 0; 0; 2; 2; 0]%N)))) = Err EInvalidBool.
Proof. now vm_compute. Qed.

(** ** C76: vectors *)

Lemma read_elements t p n : has_auth t = false -> forall i, i <= length p ->
  read_n t n (Deserializer (Packet p) i) =
    match seq_elements (de t) n (skipn i p) with
    | Ok (vs, _) => (Deserializer (Packet p) (i + length (flat_map (layout t) vs)), Ok vs)
    | Err e => (fst (read_n t n (Deserializer (Packet p) i)), Err e)
    | Panic q => (fst (read_n t n (Deserializer (Packet p) i)), Panic q)
    end.
Proof.
  intros Ha. induction n as [|n IH]; intros i Hi; cbn [read_n seq_elements].
  - cbn. now rewrite Nat.add_0_r.
  - rewrite next_payload_eq by assumption.
    destruct (de t (skipn i p)) as [[x r]| |] eqn:E; cbn [bind and_then fst]; try reflexivity.
    destruct (f_ok t (facts_of t) _ _ _ E) as (c & Hc & _ & _ & _ & _ & A & _). specialize (A Ha).
    pose proof (f_equal (@length byte) Hc) as Hl. rewrite skipn_length, app_length in Hl.
    assert (Hr : r = skipn (i + length (layout t x)) p).
    { rewrite A, <- skipn_skipn', Hc. now rewrite skipn_app_exact. }
    rewrite Hr in *. rewrite IH by lia.
    destruct (seq_elements (de t) n (skipn (i + length (layout t x)) p)) as [[xs r']| |]; cbn [bind and_then fst]; try reflexivity.
    cbn [flat_map]. now rewrite app_length, Nat.add_assoc.
Qed.

(** C76. [Vec<T>]: an 8-byte count n, then the read is exactly n reads of a [T], one after the other, all or
    nothing. *)
Lemma p_C76_vec_is_n_reads :
  forall (t : ty) (p : list byte) (i : nat),
    has_auth t = false -> i + 8 <= length p ->
    let d := Deserializer (Packet p) i in
    next_payload (TVec t) d =
      or_stay d (fun l => l) (read_n t (N.to_nat (u64_at p i)) (Deserializer (Packet p) (i + 8))).
Proof.
  intros t p i Ha Hi d. unfold d. rewrite next_payload_eq by lia. cbn [de].
  rewrite read_elements by (assumption || lia). unfold de_vec, de_u64, de_uint. rewrite skipn_length.
  destruct (Nat.ltb_spec (length p - i) 8) as [H|_]; [lia|]. cbn [bind].
  rewrite u64_at_skipn, skipn_skipn' by lia.
  destruct (seq_elements (de t) (N.to_nat (u64_at p i)) (skipn (i + 8) p)) as [[vs r]| |]; cbn [or_stay]; try reflexivity.
  rewrite layout_vec, app_length. cbn [length u64_bytes bs map].
  now replace (i + (8 + length (flat_map (layout t) vs))) with (i + 8 + length (flat_map (layout t) vs)) by lia.
Qed.

Lemma flat_map_min t (v : list (tval t)) : Forall (in_range t) v -> Forall (encodable t) v ->
  length v * min_size t <= length (flat_map (layout t) v).
Proof.
  intros R E. induction v as [|x v IH]; cbn [flat_map length]; [lia|].
  rewrite app_length. inversion_clear R. inversion_clear E.
  pose proof (f_min t (facts_of t) x H H1). specialize (IH H0 H2). lia.
Qed.

(** C76. The vector has exactly the announced number of elements, and they were all in the packet: an announced
    count for which not even the shortest elements would fit is an [Err]. *)
Lemma p_C76_announced_count :
  forall (t : ty) (p : list byte) (i : nat),
    has_auth t = false -> i + 8 <= length p ->
    let n := N.to_nat (u64_at p i) in
    (forall d v, next_payload (TVec t) (Deserializer (Packet p) i) = (d, Ok v) ->
       @length (tval t) v = n /\ i + 8 + n * min_size t <= index d <= length p) /\
    (length p < i + 8 + n * min_size t ->
       exists e, next_payload (TVec t) (Deserializer (Packet p) i) = (Deserializer (Packet p) i, Err e)).
Proof.
  intros t p i Ha Hi n.
  assert (First : forall d v, next_payload (TVec t) (Deserializer (Packet p) i) = (d, Ok v) ->
       @length (tval t) v = n /\ i + 8 + n * min_size t <= index d <= length p).
  { intros d v. change (tval (TVec t)) with (list (tval t)) in v. rewrite next_payload_eq by lia. cbn [de].
    unfold de_vec, de_u64, de_uint. rewrite skipn_length.
    destruct (Nat.ltb_spec (length p - i) 8) as [H|_]; [lia|]. cbn [bind].
    rewrite u64_at_skipn, skipn_skipn' by lia. fold n.
    destruct (seq_elements (de t) n (skipn (i + 8) p)) as [[vs r]| |] eqn:E; try discriminate.
    intros [= <- ->].
    destruct (elements_ok t (facts_of t) _ _ _ _ E) as (Hn & c & Hc & R & N & _ & L & _).
    split; [exact Hn|]. cbn [index]. 
    pose proof (flat_map_min t v R N) as Hm. rewrite Hn in Hm.
    apply (f_equal (@length byte)) in Hc. rewrite skipn_length, app_length in Hc. lia. }
  split; [exact First|]. intros H. rewrite next_payload_eq in * by lia.
  destruct (de (TVec t) (skipn i p)) as [[v r]|e|q] eqn:E.
  - exfalso. destruct (First _ v eq_refl). lia.
  - now exists e.
  - exfalso. exact (f_no_panic (TVec t) (facts_of (TVec t)) _ _ Ha E).
Qed.
(** C76. Elements that may be empty are the exception: eight bytes make a vector of any number of elements below 2^64
    (so reading it takes that much time, and for elements that occupy memory that much memory). *)
Lemma p_C76_empty_elements_refuted :
  forall n : N, (n < 2 ^ 64)%N ->
    snd (next_payload (TVec TRawEnd) (start_deserialize (Packet (u64_bytes n)))) =
    Ok (repeat (RawEnd []) (N.to_nat n)).
Proof.
  intros n Hn. unfold start_deserialize. rewrite next_payload_eq by (cbn; lia). cbn [de skipn]. unfold de_vec.
  rewrite <- (app_nil_r (u64_bytes n)), <- be8, de_u64_app by apply be_length. cbn [bind].
  rewrite be_value_be_small by exact Hn.
  assert (H : forall k, seq_elements (de TRawEnd) k [] = Ok (repeat (RawEnd []) k, [])).
  { induction k as [|k IH]; cbn [seq_elements repeat]; [reflexivity|].
    change (de TRawEnd []) with (Ok (RawEnd [], @nil byte)). cbn [bind]. rewrite IH. reflexivity. }
  now rewrite H.
Qed.
Example ex_C76_vec :
  snd (next_payload (TVec (TStruct (FCons TU16 (FCons TBool FNil))))
        (start_deserialize (Packet (u64_bytes 2 ++ bs [1; 2; 1; 3; 4; 0; 77]%N)))) =
    Ok [(258%N, (true, tt)); (772%N, (false, tt))] /\
  snd (next_payload (TVec TU16) (start_deserialize (Packet (u64_bytes 2 ++ bs [1; 2; 3]%N)))) = Err EEof /\
  (* the announced count 2^64 - 1 *)
  exists e, snd (next_payload (TVec TU16) (start_deserialize (Packet (repeat xff 8 ++ bs [1; 2; 3]%N)))) = Err e.
Proof.
  split; [now vm_compute|]. split; [now vm_compute|].
  destruct (proj2 (p_C76_announced_count TU16 (repeat xff 8 ++ bs [1; 2; 3]%N) 0 eq_refl ltac:(cbn; lia))) as [e E].
  - replace (u64_at _ 0) with (2 ^ 64 - 1)%N by (vm_compute; reflexivity). cbn [length app repeat bs map min_size].
    rewrite N2Nat.inj_sub. lia.
  - exists e. unfold start_deserialize. now rewrite E.
Qed.

(** ** C77: structs *)

Lemma read_fields_plain p fs : have_auth fs = false -> forall i, i <= length p ->
  read_fields fs (Deserializer (Packet p) i) =
    match des_plain fs (skipn i p) with
    | Ok (vs, _) => (Deserializer (Packet p) (i + length (layouts fs vs)), Ok vs)
    | Err e => (fst (read_fields fs (Deserializer (Packet p) i)), Err e)
    | Panic q => (fst (read_fields fs (Deserializer (Packet p) i)), Panic q)
    end.
Proof.
  induction fs as [|t fs IH]; intros Ha i Hi; cbn [read_fields des_plain].
  - cbn. now rewrite Nat.add_0_r.
  - cbn [have_auth] in Ha. apply orb_false_iff in Ha as [Ha Hb].
    rewrite next_payload_eq by assumption.
    destruct (de t (skipn i p)) as [[x r]| |] eqn:E; cbn [bind and_then fst]; try reflexivity.
    destruct (f_ok t (facts_of t) _ _ _ E) as (c & Hc & _ & _ & _ & _ & A & _). specialize (A Ha).
    pose proof (f_equal (@length byte) Hc) as Hl. rewrite skipn_length, app_length in Hl.
    assert (Hr : r = skipn (i + length (layout t x)) p).
    { rewrite A, <- skipn_skipn', Hc. now rewrite skipn_app_exact. }
    rewrite Hr in *. rewrite (IH Hb) by lia.
    destruct (des_plain fs (skipn (i + length (layout t x)) p)) as [[xs r']| |]; cbn [bind and_then fst]; try reflexivity.
    cbn [layouts fst snd]. now rewrite app_length, Nat.add_assoc.
Qed.
(** C77. Reading a struct is reading its fields in declaration order, all or nothing. *)
Lemma p_C77_read_struct :
  forall (fs : tys) (p : list byte) (i : nat),
    have_auth fs = false -> i <= length p ->
    let d := Deserializer (Packet p) i in
    next_payload (TStruct fs) d = or_stay d (fun v => v) (read_fields fs d).
Proof.
  intros fs p i Ha Hi d. unfold d. rewrite next_payload_eq by assumption. rewrite de_struct.
  rewrite read_fields_plain by assumption.
  now destruct (des_plain fs (skipn i p)) as [[vs r]| |].
Qed.
(** C77. Adding a struct is adding its fields in declaration order, all or nothing. *)
Lemma p_C77_add_struct :
  forall (fs : tys) (p : packet) (v : tvals fs),
    packet_add (TStruct fs) p v =
      match add_all p (fields fs v) with
      | Ok q => (q, Ok tt)
      | Err e => (p, Err e)
      | Panic q => (p, Panic q)
      end.
Proof.
  intros fs p v. unfold packet_add, packet_extend. cbn [ser].
  assert (H : add_all p (fields fs v) =
    match sers fs v with
    | Ok e => Ok (Packet (packet_bytes p ++ bincode_write e))
    | Err e => Err e
    | Panic q => Panic q
    end).
  { revert p. induction fs as [|t fs IH]; intros p; cbn [fields add_all sers].
    - cbn. rewrite app_nil_r. now destruct p.
    - destruct v as [x xs]. cbn [fst snd]. unfold packet_add, packet_extend.
      destruct (ser t x) as [e| |]; cbn [bincode_serialize bind]; try reflexivity.
      rewrite IH. destruct (sers fs xs) as [e'| |]; cbn [bind]; try reflexivity.
      cbn [packet_bytes]. now rewrite bincode_write_app, app_assoc. }
  rewrite H. now destruct (sers fs v) as [e| |].
Qed.
Definition field_struct : tys := FCons TI16 (FCons TString (FCons (TVec TU8) FNil)).
Example ex_C77_struct :
  let d := start_deserialize (Packet (bs [0xFF; 0xFE]%N ++ u64_bytes 2 ++ bs [0x68; 0x69]%N ++ u64_bytes 1 ++ [x05])) in
  read_fields field_struct d = next_payload (TStruct field_struct) d /\
  snd (read_fields field_struct d) = Ok ((-2)%Z, (bs [0x68; 0x69]%N, ([x05], tt))) /\
  packet_add (TStruct field_struct) (Packet []) ((-2)%Z, (bs [0x68; 0x69]%N, ([x05], tt))) = (pntr d, Ok tt).
Proof. now vm_compute. Qed.

(** ** C78: integers *)

(** C78. Signed integers are two's complement, most significant byte first: every bit pattern is a number and every
    number in range has one. *)
Lemma p_C78_signed_integers :
  forall (p : list byte) (i : nat),
    (i + 1 <= length p -> next_payload TI8 (Deserializer (Packet p) i) =
                            (Deserializer (Packet p) (i + 1), Ok (as_signed 8 (n_at p i)))) /\
    (i + 2 <= length p -> next_payload TI16 (Deserializer (Packet p) i) =
                            (Deserializer (Packet p) (i + 2), Ok (as_signed 16 (u16_at p i)))) /\
    (i + 4 <= length p -> next_payload TI32 (Deserializer (Packet p) i) =
                            (Deserializer (Packet p) (i + 4), Ok (as_signed 32 (u32_at p i)))) /\
    (i + 8 <= length p -> next_payload TI64 (Deserializer (Packet p) i) =
                            (Deserializer (Packet p) (i + 8), Ok (as_signed 64 (u64_at p i)))).
Proof.
  intros p i.
  assert (D : forall k (H : i + k <= length p), de_int k (skipn i p) =
            Ok (signed k (be_value (firstn k (skipn i p))), skipn k (skipn i p))).
  { intros k H. unfold de_int, de_uint. rewrite skipn_length.
    destruct (Nat.ltb_spec (length p - i) k); [lia|reflexivity]. }
  repeat split; intros H; rewrite next_payload_eq by lia; cbn [de]; rewrite D by assumption.
  - cbn [layout bs map length]. do 3 f_equal. rewrite skipn_byte by lia. cbn [firstn].
    unfold n_at. set (x := byte_at p i). replace (be_value [x]) with (N_of_byte x) by (cbn; lia). reflexivity.
  - rewrite <- u16_at_value by lia. reflexivity.
  - rewrite <- u32_at_value by lia. reflexivity.
  - rewrite <- u64_at_value by lia. reflexivity.
Qed.
Example ex_C78_signed :
  as_signed 8 255 = (-1)%Z /\ as_signed 16 0x8000 = (-32768)%Z /\ as_signed 32 0x7FFFFFFF = 2147483647%Z /\
  snd (next_payload TI64 (start_deserialize (Packet (repeat xff 7 ++ [xfb])))) = Ok (-5)%Z.
Proof. now vm_compute. Qed.

Lemma be_value_app a b : be_value (a ++ b) = (be_value a * 256 ^ N.of_nat (length b) + be_value b)%N.
Proof.
  induction b as [|x b IH] using rev_ind; [cbn; rewrite app_nil_r; lia|].
  rewrite app_assoc, !be_value_snoc, IH, app_length, Nat.add_1_r, Nat2N.inj_succ, N.pow_succ_r'. lia.
Qed.

(** ** C95: characters *)

(** C95. A char is read exactly when the bytes at the cursor begin with the UTF-8 encoding of a Unicode scalar value; then it is that
    character, and the cursor is behind it. Otherwise nothing moves, and the error is "unexpected end" at the end of the packet and "invalid char" before it. *)
Lemma p_C95_char_exact :
  forall (p : list byte) (i : nat),
    i <= length p ->
    (forall c rest, is_scalar c -> skipn i p = utf8_char c ++ rest ->
       next_payload TChar (Deserializer (Packet p) i) = (Deserializer (Packet p) (i + length (utf8_char c)), Ok c)) /\
    ((forall c rest, is_scalar c -> skipn i p <> utf8_char c ++ rest) ->
       next_payload TChar (Deserializer (Packet p) i) =
         (Deserializer (Packet p) i, Err (if i =? length p then EEof else EInvalidChar))).
Proof.
  intros p i Hi. rewrite next_payload_eq by assumption. cbn [de]. split.
  - intros c rest Hc E. rewrite E, de_char_build by exact Hc. reflexivity.
  - intros H. destruct (de_char (skipn i p)) as [[v r]|e|q] eqn:E.
    + apply de_char_ok in E as [Hv E]. now apply H in E.
    + destruct (Nat.eqb_spec i (length p)) as [->|Ne].
      * rewrite skipn_all in E. cbn in E. congruence.
      * rewrite skipn_byte in E by lia. unfold de_char in E. cbn [de_u8 bind] in E. destruct (utf8_char_width _) as [|[|k]]; [congruence|discriminate|].
        destruct (_ <? _); [congruence|]. destruct (utf8_valid _); congruence.
    + now apply de_char_no_panic in E.
Qed.
(** '€'; a surrogate, an overlong '/', a stray continuation byte, a character cut in the middle *)
Example ex_C95_char :
  next_payload TChar (start_deserialize (Packet (bs [0xE2; 0x82; 0xAC; 0x41]%N))) =
    (Deserializer (Packet (bs [0xE2; 0x82; 0xAC; 0x41]%N)) 3, Ok 0x20AC%N) /\
  Forall (fun b => snd (next_payload TChar (start_deserialize (Packet (bs b)))) = Err EInvalidChar)
    [[0xED; 0xA0; 0x80]; [0xC0; 0xAF]; [0x80]; [0xF0; 0x9F; 0x98]]%N /\
  (forall c rest, is_scalar c -> skipn 0 (bs [0xC0; 0xAF]%N) <> utf8_char c ++ rest).
Proof.
  split; [reflexivity|]. split; [repeat constructor|].
  intros c rest Hc E.
  pose proof (proj1 (p_C95_char_exact (bs [0xC0; 0xAF]%N) 0 ltac:(cbn; lia)) c rest Hc E) as H.
  vm_compute in H. discriminate.
Qed.

(** ** C96: 128-bit integers and floats *)

(** C96. A u128 or i128 is 16 bytes, big-endian (two's complement); an f32 is the 4 bytes, an f64 the 8 bytes of its bits, big-endian: every
    bit pattern is accepted as it is, NaNs with their payload, infinities and signed zeros included. With fewer bytes left the result
    is [Err] and nothing moves. *)
Lemma p_C96_wide_numbers :
  forall (p : list byte) (i : nat),
    let u128_at := (u64_at p i * 2 ^ 64 + u64_at p (i + 8))%N in
    (i + 16 <= length p -> next_payload TU128 (Deserializer (Packet p) i) = (Deserializer (Packet p) (i + 16), Ok u128_at)) /\
    (i + 16 <= length p ->
       next_payload TI128 (Deserializer (Packet p) i) = (Deserializer (Packet p) (i + 16), Ok (as_signed 128 u128_at))) /\
    (i + 4 <= length p -> next_payload TF32 (Deserializer (Packet p) i) = (Deserializer (Packet p) (i + 4), Ok (u32_at p i))) /\
    (i + 8 <= length p -> next_payload TF64 (Deserializer (Packet p) i) = (Deserializer (Packet p) (i + 8), Ok (u64_at p i))).
Proof.
  intros p i u128_at.
  assert (D : forall k (H : i + k <= length p), de_uint k (skipn i p) =
            Ok (be_value (firstn k (skipn i p)), skipn k (skipn i p))).
  { intros k H. unfold de_uint. rewrite skipn_length.
    destruct (Nat.ltb_spec (length p - i) k); [lia|reflexivity]. }
  assert (W : i + 16 <= length p -> be_value (firstn 16 (skipn i p)) = u128_at).
  { intros H. unfold u128_at. rewrite !u64_at_value by lia.
    replace (firstn 16 (skipn i p)) with (firstn 8 (skipn i p) ++ firstn 8 (skipn (i + 8) p)).
    - rewrite be_value_app, firstn_length_le by (rewrite skipn_length; lia). reflexivity.
    - rewrite <- (skipn_skipn' 8 i p). rewrite <- (firstn_skipn 8 (skipn i p)) at 3.
      rewrite firstn_app, firstn_firstn. rewrite firstn_length, skipn_length.
      replace (Nat.min 8 (length p - i)) with 8 by lia. reflexivity. }
  repeat split; intros H; rewrite next_payload_eq by lia; cbn [de].
  - rewrite D, W by assumption. reflexivity.
  - unfold de_int. rewrite D by assumption. cbn [bind]. rewrite W by assumption. reflexivity.
  - rewrite D, <- u32_at_value by assumption. reflexivity.
  - rewrite D, <- u64_at_value by assumption. reflexivity.
Qed.
Lemma p_C96_too_short :
  forall (p : list byte) (i : nat),
    i <= length p ->
    (length p < i + 16 -> next_payload TU128 (Deserializer (Packet p) i) = (Deserializer (Packet p) i, Err EEof)) /\
    (length p < i + 16 -> next_payload TI128 (Deserializer (Packet p) i) = (Deserializer (Packet p) i, Err EEof)) /\
    (length p < i + 4 -> next_payload TF32 (Deserializer (Packet p) i) = (Deserializer (Packet p) i, Err EEof)) /\
    (length p < i + 8 -> next_payload TF64 (Deserializer (Packet p) i) = (Deserializer (Packet p) i, Err EEof)).
Proof.
  intros p i Hi.
  assert (D : forall k (H : length p < i + k), de_uint k (skipn i p) = Err EEof).
  { intros k H. unfold de_uint. rewrite skipn_length. destruct (Nat.ltb_spec (length p - i) k); [reflexivity|lia]. }
  repeat split; intros H; rewrite next_payload_eq by lia; cbn [de]; unfold de_int; now rewrite D by assumption.
Qed.
(** A signalling NaN keeps its bits in both directions; i128::MIN. *)
Example ex_C96_numbers :
  next_payload TF32 (start_deserialize (Packet (bs [0x7F; 0xA0; 0; 1]%N))) =
    (Deserializer (Packet (bs [0x7F; 0xA0; 0; 1]%N)) 4, Ok 0x7FA00001%N) /\
  packet_raw (fst (packet_add TF32 (Packet []) 0x7FA00001%N)) = bs [0x7F; 0xA0; 0; 1]%N /\
  snd (next_payload TI128 (start_deserialize (Packet (x80 :: repeat x00 15)))) = Ok (- 2 ^ 127)%Z /\
  packet_raw (fst (packet_add TU128 (Packet []) (2 ^ 128 - 2)%N)) = repeat xff 15 ++ [xfe].
Proof. now vm_compute. Qed.
