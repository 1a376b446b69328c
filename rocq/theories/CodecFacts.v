(** * CodecFacts: what each (de)serializer does, in terms of Spec.v *)
From Coq Require Import Strings.String.
From Verif Require Import Base Serde Codec Universe Spec SerdeFacts.
Open Scope N_scope.

(** ** Positions *)
Lemma nth_skipn {A} (i j : nat) (b : list A) d : nth j (skipn i b) d = nth (i + j) b d.
Proof.
  revert b. induction i as [|i IH]; intros b; [reflexivity|].
  destruct b as [|x b]; cbn [skipn Nat.add nth]; [now destruct j|apply IH].
Qed.
Lemma byte_at_skipn i j b : byte_at (skipn i b) j = byte_at b (i + j).
Proof. apply nth_skipn. Qed.
Lemma n_at_skipn i j b : n_at (skipn i b) j = n_at b (i + j).
Proof. unfold n_at. now rewrite byte_at_skipn. Qed.
Lemma u16_at_skipn i j b : u16_at (skipn i b) j = u16_at b (i + j).
Proof. unfold u16_at. now rewrite !n_at_skipn, Nat.add_assoc. Qed.
Lemma address_at_skipn i j b : address_at (skipn i b) j = address_at b (i + j).
Proof. unfold address_at. now rewrite !byte_at_skipn, u16_at_skipn, !Nat.add_assoc. Qed.

Lemma skipn_skipn' {A} (i j : nat) (b : list A) : skipn i (skipn j b) = skipn (j + i) b.
Proof.
  revert b. induction j as [|j IH]; intros b; [reflexivity|].
  destruct b as [|x b]; cbn [skipn Nat.add]; [apply skipn_nil|apply IH].
Qed.
Lemma firstn_plus {A} (i j : nat) (b : list A) :
  firstn (i + j) b = firstn i b ++ firstn j (skipn i b).
Proof.
  revert b. induction i as [|i IH]; intros b; [reflexivity|].
  destruct b as [|x b]; cbn [firstn skipn Nat.add app]; [now rewrite firstn_nil|].
  now rewrite IH.
Qed.
Lemma firstn_app_exact {A} (n : nat) (a b : list A) : length a = n -> firstn n (a ++ b) = a.
Proof. intros <-. now rewrite firstn_app, Nat.sub_diag, firstn_all, firstn_O, app_nil_r. Qed.
Lemma skipn_app_exact {A} (n : nat) (a b : list A) : length a = n -> skipn n (a ++ b) = b.
Proof. intros <-. now rewrite skipn_app, Nat.sub_diag, skipn_all. Qed.

Lemma firstn_S_skipn (b : list byte) (i : nat) :
  (i < length b)%nat -> firstn 1 (skipn i b) = [byte_at b i].
Proof.
  revert b. induction i as [|i IH]; intros [|x b] H; cbn in H; try lia; [reflexivity|].
  cbn [skipn]. rewrite IH by lia. reflexivity.
Qed.
Lemma firstn_bytes_at (k : nat) : forall (b : list byte) (i : nat),
  (i + k <= length b)%nat -> firstn k (skipn i b) = map (fun j => byte_at b (i + j)) (seq 0 k).
Proof.
  induction k as [|k IH]; intros b i H; [reflexivity|].
  change (S k) with (1 + k)%nat at 1. rewrite firstn_plus, firstn_S_skipn, skipn_skipn' by lia.
  rewrite IH by lia. cbn [seq map app]. f_equal; [f_equal; lia|].
  rewrite <- seq_shift, map_map. apply map_ext. intros j. f_equal. lia.
Qed.

(** Big-endian values at a position. *)
Lemma be_value_2 x y : be_value [x; y] = N_of_byte x * 256 + N_of_byte y.
Proof. reflexivity. Qed.
Lemma u16_at_value b i : (i + 2 <= length b)%nat -> u16_at b i = be_value (firstn 2 (skipn i b)).
Proof.
  intros H. rewrite firstn_bytes_at by lia. cbn [seq map].
  rewrite be_value_2, Nat.add_0_r. reflexivity.
Qed.
Lemma u64_at_value b i : (i + 8 <= length b)%nat -> u64_at b i = be_value (firstn 8 (skipn i b)).
Proof.
  intros H. rewrite firstn_bytes_at by lia. cbn [seq map]. unfold be_value. cbn [fold_left].
  unfold u64_at, n_at. rewrite Nat.add_0_r.
  change (256 ^ 7) with 72057594037927936. change (256 ^ 6) with 281474976710656.
  change (256 ^ 5) with 1099511627776. change (256 ^ 4) with 4294967296.
  change (256 ^ 3) with 16777216. change (256 ^ 2) with 65536. lia.
Qed.

Lemma u16_layout_at b i : (i + 2 <= length b)%nat -> u16_bytes (u16_at b i) = firstn 2 (skipn i b).
Proof.
  intros H. rewrite u16_at_value by lia. apply u16_bytes_value.
  rewrite firstn_length, skipn_length. lia.
Qed.
Lemma u16_at_lt b i : u16_at b i < 2 ^ 16.
Proof.
  unfold u16_at, n_at. pose proof (N_of_byte_lt (byte_at b i)). pose proof (N_of_byte_lt (byte_at b (i + 1))).
  change (2 ^ 16) with 65536. lia.
Qed.
Lemma address_layout_at b i :
  (i + 6 <= length b)%nat -> address_layout (address_at b i) = firstn 6 (skipn i b).
Proof.
  intros H. cbn [address_at address_layout].
  rewrite u16_layout_at by lia.
  change 6%nat with (4 + 2)%nat. rewrite firstn_plus, skipn_skipn'. f_equal.
  rewrite firstn_bytes_at by lia. cbn [seq map]. now rewrite Nat.add_0_r.
Qed.
Lemma address_at_in_range b i : address_in_range (address_at b i).
Proof. apply u16_at_lt. Qed.
Lemma address_at_ipv4 b i : ipv4 (address_at b i).
Proof. exact I. Qed.
Lemma address_layout_length a : ipv4 a -> length (address_layout a) = 6%nat.
Proof. destruct a; [reflexivity|intros []]. Qed.

(** Reading back what was laid out. *)
Lemma bs_byte n : bs [n] = [byte_of_N n].
Proof. reflexivity. Qed.
Lemma u16_at_layout n r : n < 2 ^ 16 -> u16_at (u16_bytes n ++ r) 0 = n.
Proof.
  intros H. rewrite u16_at_value by (rewrite app_length; cbn; lia).
  cbn [skipn]. rewrite firstn_app_exact by reflexivity.
  rewrite <- be2. now apply be_value_be_small.
Qed.
Lemma address_at_layout a r : ipv4 a -> address_in_range a -> address_at (address_layout a ++ r) 0 = a.
Proof.
  destruct a as [x0 x1 x2 x3 p|]; [|intros []]. intros _ Hp. cbn [address_layout].
  unfold address_at. cbn [byte_at nth app Nat.add].
  change (x0 :: x1 :: x2 :: x3 :: u16_bytes p ++ r) with ([x0; x1; x2; x3] ++ (u16_bytes p ++ r)).
  f_equal.
  replace 4%nat with (4 + 0)%nat by reflexivity.
  rewrite <- u16_at_skipn. cbn [skipn app]. now apply u16_at_layout.
Qed.

(** ** One element of a tuple *)
Lemma next_required_ok {A} (d : list byte -> dres A) e n b :
  n <> 0 ->
  next_required d e (Access n b) = let* (v, r) := d b in Ok (v, Access (N.pred n) r).
Proof.
  intros H. unfold next_required, next_element. cbn [acc_len acc_rest].
  destruct (N.eqb_spec n 0) as [|_]; [contradiction|].
  destruct (d b) as [[v r]| |]; reflexivity.
Qed.

(** ** Fixed-size types: characterisation at positions *)
Ltac shorts := repeat match goal with
  | |- context [(length (skipn ?i ?b) <? ?k)%nat] => rewrite (skipn_length i b)
  | |- context [(?a <? ?b)%nat] => destruct (Nat.ltb_spec a b); try lia; try reflexivity; cbn [bind]
  end.

Lemma de_u8_at b : de_u8 b = if (length b <? 1)%nat then Err EEof else Ok (byte_at b 0, skipn 1 b).
Proof. destruct b; reflexivity. Qed.

Lemma de_octets4_at b :
  de_octets4 b = if (length b <? 4)%nat then Err EEof
                 else Ok ((byte_at b 0, byte_at b 1, byte_at b 2, byte_at b 3), skipn 4 b).
Proof. destruct b as [|x0 [|x1 [|x2 [|x3 b]]]]; reflexivity. Qed.

Lemma de_u16_at b :
  de_u16 b = if (length b <? 2)%nat then Err EEof else Ok (u16_at b 0, skipn 2 b).
Proof.
  unfold de_u16, de_uint. destruct (Nat.ltb_spec (length b) 2); [reflexivity|].
  now rewrite u16_at_value by lia.
Qed.

Lemma de_address_at b :
  de_address b = if (length b <? 6)%nat then Err EEof else Ok (address_at b 0, skipn 6 b).
Proof.
  unfold de_address, deserialize_tuple.
  rewrite next_required_ok, de_octets4_at by lia.
  destruct (Nat.ltb_spec (length b) 4) as [H|H].
  - destruct (Nat.ltb_spec (length b) 6); [reflexivity|lia].
  - cbn [bind]. rewrite next_required_ok, de_u16_at, skipn_length by (cbn; lia).
    destruct (Nat.ltb_spec (length b) 6), (Nat.ltb_spec (length b - 4) 2); try lia; [reflexivity|].
    cbn [bind acc_rest]. rewrite skipn_skipn', u16_at_skipn. reflexivity.
Qed.

Lemma de_bits_at b :
  de_bits b = if (length b <? 1)%nat then Err EEof else Ok (bits_from_u8 (byte_at b 0), skipn 1 b).
Proof. destruct b; reflexivity. Qed.

Lemma de_time_at b :
  de_time b = if (length b <? 8)%nat then Err EEof else Ok (TimeDistribution (u64_at b 0), skipn 8 b).
Proof.
  unfold de_time, deserialize_tuple. rewrite next_required_ok by lia.
  unfold de_u64, de_uint. destruct (Nat.ltb_spec (length b) 8); [reflexivity|].
  cbn [bind acc_rest]. now rewrite u64_at_value by lia.
Qed.

Ltac next_field :=
  rewrite next_required_ok by (cbn; lia);
  rewrite ?de_address_at, ?de_u16_at, ?de_bits_at, ?skipn_length;
  match goal with |- context [if (?x <? ?y)%nat then Err EEof else _] =>
    destruct (Nat.ltb_spec x y) as [?Hn|?Hn]
  end;
  cbn [bind];
  rewrite ?skipn_skipn', ?address_at_skipn, ?u16_at_skipn, ?byte_at_skipn; cbn [Nat.add].

Ltac fixed_payload N :=
  match goal with |- _ = if (length ?b <? N)%nat then _ else _ =>
    destruct (Nat.ltb_spec (length b) N) as [Hlen|Hlen]
  end;
  unfold deserialize_tuple;
  repeat (next_field; try lia; try reflexivity).

Lemma de_puncture_at b :
  de_puncture b = if (length b <? 14)%nat then Err EEof else Ok (puncture_of b, skipn 14 b).
Proof. unfold de_puncture. fixed_payload 14%nat. Qed.

Lemma de_puncture_request_at b :
  de_puncture_request b = if (length b <? 14)%nat then Err EEof else Ok (puncture_request_of b, skipn 14 b).
Proof. unfold de_puncture_request. fixed_payload 14%nat. Qed.

(** Flags. *)
Lemma bits_connection b i :
  ct_decode (bit0 (bits_from_u8 (byte_at b i)), bit1 (bits_from_u8 (byte_at b i))) = connection_at b i.
Proof. unfold connection_at, n_at. destruct (byte_at b i); reflexivity. Qed.
Lemma bits_high b i : bit7 (bits_from_u8 (byte_at b i)) = high_bit_at b i.
Proof. unfold high_bit_at, n_at. destruct (byte_at b i); reflexivity. Qed.

(** [RawEnd] takes everything that is left. *)
Lemma de_rawend_all b : fits_memory b -> de_rawend b = Ok (RawEnd b, []).
Proof.
  intros H. unfold de_rawend, deserialize_tuple. cbn [acc_len acc_rest].
  rewrite rawend_loop_spec. unfold fits_memory, len in H.
  rewrite N.min_r by (unfold USIZE_MAX; change (2 ^ 64) with 18446744073709551616 in H; lia).
  now rewrite Nat2N.id, firstn_all, skipn_all.
Qed.
(** In general (even for vectors no computer can hold): *)
Definition usize_cap (b : list byte) : nat := N.to_nat (N.min USIZE_MAX (N.of_nat (length b))).
Lemma de_rawend_any b :
  de_rawend b = Ok (RawEnd (firstn (usize_cap b) b), skipn (usize_cap b) b).
Proof.
  unfold de_rawend, deserialize_tuple. cbn [acc_len acc_rest].
  now rewrite rawend_loop_spec.
Qed.

(** What decoding an introduction payload gives, for any length. *)
Definition request_any (b : list byte) : introduction_request * list byte :=
  let tail := skipn 21 b in
  ({| iq_destination_address := address_at b 0; iq_source_lan_address := address_at b 6;
      iq_source_wan_address := address_at b 12; iq_advice := high_bit_at b 18;
      iq_connection_type := connection_at b 18; iq_identifier := u16_at b 19;
      iq_extra_bytes := RawEnd (firstn (usize_cap tail) tail) |}, skipn (usize_cap tail) tail).
Lemma de_introduction_request_any b :
  de_introduction_request b = if (length b <? 21)%nat then Err EEof else Ok (request_any b).
Proof.
  unfold de_introduction_request.
  destruct (Nat.ltb_spec (length b) 21) as [Hlen|Hlen]; unfold deserialize_tuple;
    do 5 (next_field; try lia; try reflexivity).
  rewrite next_required_ok, de_rawend_any by (cbn; lia). cbn [bind acc_rest].
  rewrite bits_connection, bits_high. reflexivity.
Qed.

Definition response_any (b : list byte) : introduction_response * list byte :=
  let tail := skipn 33 b in
  ({| ir_destination_address := address_at b 0; ir_source_lan_address := address_at b 6;
      ir_source_wan_address := address_at b 12; ir_lan_introduction_address := address_at b 18;
      ir_wan_introduction_address := address_at b 24; ir_tunnel := false;
      ir_connection_type := connection_at b 30; ir_identifier := u16_at b 31;
      ir_extra_bytes := RawEnd (firstn (usize_cap tail) tail) |}, skipn (usize_cap tail) tail).
Lemma de_introduction_response_any b :
  de_introduction_response b = if (length b <? 33)%nat then Err EEof else Ok (response_any b).
Proof.
  unfold de_introduction_response.
  destruct (Nat.ltb_spec (length b) 33) as [Hlen|Hlen]; unfold deserialize_tuple;
    do 7 (next_field; try lia; try reflexivity).
  rewrite next_required_ok, de_rawend_any by (cbn; lia). cbn [bind acc_rest].
  rewrite bits_connection. reflexivity.
Qed.

Lemma usize_cap_fits b : fits_memory b -> usize_cap b = length b.
Proof.
  intros H. unfold usize_cap, fits_memory, len in *.
  rewrite N.min_r by (unfold USIZE_MAX; change (2 ^ 64) with 18446744073709551616 in H; lia).
  apply Nat2N.id.
Qed.
Lemma fits_memory_skipn n b : fits_memory b -> fits_memory (skipn n b).
Proof. unfold fits_memory, len. rewrite skipn_length. lia. Qed.

Lemma request_any_fits b : fits_memory b -> request_any b = (introduction_request_of b, []).
Proof.
  intros H. unfold request_any, introduction_request_of.
  rewrite usize_cap_fits by now apply fits_memory_skipn.
  now rewrite firstn_all, skipn_all.
Qed.
Lemma response_any_fits b : fits_memory b -> response_any b = (introduction_response_of b, []).
Proof.
  intros H. unfold response_any, introduction_response_of.
  rewrite usize_cap_fits by now apply fits_memory_skipn.
  now rewrite firstn_all, skipn_all.
Qed.

(** ** Authentication payload *)
Lemma slice_ok {A} (v : list A) i j :
  (i <= j <= length v)%nat -> slice v i j = Some (firstn (j - i) (skipn i v)).
Proof.
  intros H. unfold slice.
  destruct (Nat.leb_spec i j); [|lia]. destruct (Nat.leb_spec j (length v)); [|lia]. reflexivity.
Qed.
Lemma slice_none {A} (v : list A) i j : (length v < j)%nat -> slice v i j = None.
Proof.
  intros H. unfold slice. destruct (Nat.leb_spec j (length v)); [lia|]. now rewrite andb_false_r.
Qed.

(** Decoding of the key blob itself. *)
Definition auth_of_contents (contents : list byte) : outcome bin_member :=
  if (length contents <? 10)%nat then Panic PSliceIndex
  else if negb (bytes_eqb (firstn 10 contents) libnacl_prefix) then
    Err (ECustom "Received BinMemberAuthenticationPayload without LibNaclPK: prefix")
  else if (length contents <? 74)%nat then Panic PSliceIndex
  else Ok (BinMember (firstn 32 (skipn 42 contents)) (firstn 32 (skipn 10 contents))).

Lemma layout_verified_ok n s : length s = n -> layout_verified n s = Some s.
Proof. intros <-. unfold layout_verified. now rewrite Nat.eqb_refl. Qed.

Lemma de_bin_member_blob b :
  de_bin_member b =
    let* (contents, r) := de_blob 2 b in
    let* v := auth_of_contents contents in Ok (v, r).
Proof.
  unfold de_bin_member. rewrite de_varlen16_blob.
  destruct (de_blob 2 b) as [[contents r]| |]; cbn [bind]; [|reflexivity|reflexivity].
  cbn [vl16]. unfold auth_of_contents.
  destruct (Nat.ltb_spec (length contents) 10) as [H|H].
  { now rewrite slice_none by lia. }
  rewrite slice_ok by lia. cbn [or_panic bind skipn Nat.sub].
  destruct (bytes_eqb _ _); cbn [negb]; [|reflexivity].
  destruct (Nat.ltb_spec (length contents) 74) as [H'|H'].
  { destruct (Nat.ltb_spec (length contents) 42).
    - now rewrite slice_none by lia.
    - rewrite slice_ok by lia. cbn [or_panic bind].
      rewrite layout_verified_ok by (rewrite firstn_length, skipn_length; lia). cbn [ok_or bind].
      now rewrite slice_none by lia. }
  rewrite slice_ok by lia. cbn [or_panic bind].
  rewrite layout_verified_ok by (rewrite firstn_length, skipn_length; lia). cbn [ok_or bind].
  rewrite slice_ok by lia. cbn [or_panic bind].
  rewrite layout_verified_ok by (rewrite firstn_length, skipn_length; lia). cbn [ok_or bind].
  reflexivity.
Qed.

Lemma libnacl_ascii : libnacl_prefix = ascii "LibNaCLPK:".
Proof. reflexivity. Qed.

(** ** Structs: [deserialize_struct] without the length bookkeeping *)
Fixpoint des_plain (fs : tys) : list byte -> dres (tvals fs) :=
  match fs with
  | FNil => fun b => Ok (tt, b)
  | FCons t r => fun b =>
      let* (x, b) := de t b in
      let* (xs, b) := des_plain r b in
      Ok ((x, xs), b)
  end.

Lemma des_des_plain fs : forall i b,
  des fs i (Access (N.of_nat (nfields fs)) b) = let* (v, r) := des_plain fs b in Ok (v, Access 0 r).
Proof.
  induction fs as [|t fs IH]; intros i b; [reflexivity|].
  cbn [des des_plain nfields].
  rewrite next_required_ok by lia.
  destruct (de t b) as [[x b']| |]; cbn [bind]; [|reflexivity|reflexivity].
  rewrite Nat2N.inj_succ, N.pred_succ, IH.
  destruct (des_plain fs b') as [[xs b'']| |]; reflexivity.
Qed.
Lemma de_struct fs b : de (TStruct fs) b = des_plain fs b.
Proof.
  cbn [de]. unfold deserialize_tuple. rewrite des_des_plain.
  destruct (des_plain fs b) as [[xs b']| |]; reflexivity.
Qed.
