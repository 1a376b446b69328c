(** * Prop_Field: property theorems (statements only; proofs in FieldProofs.v) *)
From Coq Require Import Strings.String.
From Verif Require Import Base Serde Codec Universe Spec SerdeFacts CodecFacts Utf8Facts UniverseFacts Packet Client PacketFacts FieldProofs.
Open Scope nat_scope.

(** C74. A String is read exactly when an 8-byte length, that many bytes, and these bytes well-formed UTF-8
    are there; then it consists of exactly those bytes. Missing bytes are "unexpected end", wrong ones "invalid UTF-8". *)
Theorem C74_string_exact :
  forall (p : list byte) (i : nat),
    i <= length p ->
    let n := N.to_nat (u64_at p i) in
    let s := firstn n (skipn (i + 8) p) in
    (i + 8 + n <= length p -> is_utf8 s ->
       next_payload TString (Deserializer (Packet p) i) = (Deserializer (Packet p) (i + 8 + n), Ok s)) /\
    (length p < i + 8 + n ->
       next_payload TString (Deserializer (Packet p) i) = (Deserializer (Packet p) i, Err EEof)) /\
    (i + 8 + n <= length p -> ~ is_utf8 s ->
       next_payload TString (Deserializer (Packet p) i) = (Deserializer (Packet p) i, Err EInvalidUtf8)).
Proof. exact p_C74_string_exact. Qed.
Print Assumptions C74_string_exact.

(** "h\u00e9\u20ac\U0001F600" *)
Example ex_C74_string :
  let s := bs [0x68; 0xC3; 0xA9; 0xE2; 0x82; 0xAC; 0xF0; 0x9F; 0x98; 0x80]%N in
  is_utf8 s /\
  snd (next_payload TString (start_deserialize (Packet (u64_bytes 10 ++ s ++ [xff])))) = Ok s /\
  (* cut inside the last character *)
  snd (next_payload TString (start_deserialize (Packet (u64_bytes 9 ++ s)))) = Err EInvalidUtf8 /\
  (* a surrogate, an overlong '/', a stray continuation byte *)
  snd (next_payload TString (start_deserialize (Packet (u64_bytes 3 ++ bs [0xED; 0xA0; 0x80]%N)))) = Err EInvalidUtf8 /\
  snd (next_payload TString (start_deserialize (Packet (u64_bytes 2 ++ bs [0xC0; 0xAF]%N)))) = Err EInvalidUtf8 /\
  snd (next_payload TString (start_deserialize (Packet (u64_bytes 1 ++ bs [0x80]%N)))) = Err EInvalidUtf8.
Proof. exact ex_C74_string. Qed.

(** C75. A bool is one byte, 0 or 1; every other byte is an "invalid bool". *)
Theorem C75_bool_exact :
  forall (p : list byte) (i : nat),
    i < length p ->
    (byte_at p i = x00 ->
       next_payload TBool (Deserializer (Packet p) i) = (Deserializer (Packet p) (i + 1), Ok false)) /\
    (byte_at p i = x01 ->
       next_payload TBool (Deserializer (Packet p) i) = (Deserializer (Packet p) (i + 1), Ok true)) /\
    (byte_at p i <> x00 -> byte_at p i <> x01 ->
       next_payload TBool (Deserializer (Packet p) i) = (Deserializer (Packet p) i, Err EInvalidBool)).
Proof. exact p_C75_bool_exact. Qed.
Print Assumptions C75_bool_exact.

(** C75. [Option<T>]: byte 0 is [None], byte 1 is [Some] of what reading a [T] from the next position gives,
    every other byte is an "invalid tag". *)
Theorem C75_option_exact :
  forall (t : ty) (p : list byte) (i : nat),
    i < length p ->
    let d := Deserializer (Packet p) i in
    (byte_at p i = x00 -> next_payload (TOption t) d = (Deserializer (Packet p) (i + 1), Ok None)) /\
    (byte_at p i = x01 ->
       next_payload (TOption t) d = or_stay d Some (next_payload t (Deserializer (Packet p) (i + 1)))) /\
    (byte_at p i <> x00 -> byte_at p i <> x01 -> next_payload (TOption t) d = (d, Err EInvalidTag)).
Proof. exact p_C75_option_exact. Qed.
Print Assumptions C75_option_exact.

(** C75. An enum: a 4-byte index. If the enum has that many variants, the content of that variant is read
    from the position behind it; an index out of range is an [Err]. *)
Theorem C75_enum_exact :
  forall (vs : tys) (p : list byte) (i : nat),
    i + 4 <= length p ->
    let d := Deserializer (Packet p) i in
    match variant vs (N.to_nat (u32_at p i)) with
    | Some (existT _ t f) =>
        next_payload (TEnum vs) d = or_stay d f (next_payload t (Deserializer (Packet p) (i + 4)))
    | None => next_payload (TEnum vs) d = (d, Err (ECustom "invalid value: variant index"))
    end.
Proof. exact p_C75_enum_exact. Qed.
Print Assumptions C75_enum_exact.

Example ex_C75_enum :
  snd (next_payload enum_ty (start_deserialize (Packet (bs [0; 0; 0; 2; 1; 1; 0xFE]%N)))) =
    Ok (inr (inr (inl (true, (Some (-2)%Z, tt))))) /\
  snd (next_payload enum_ty (start_deserialize (Packet (bs [0; 0; 0; 1; 1; 2]%N)))) = Ok (inr (inl 258%N)) /\
  snd (next_payload enum_ty (start_deserialize (Packet (bs [0; 0; 0; 0]%N)))) = Ok (inl tt) /\
  is_ok (snd (next_payload enum_ty (start_deserialize (Packet (bs [0; 0; 0; 3; 0; 0]%N))))) = false /\
  snd (next_payload enum_ty (start_deserialize (Packet (bs [0; 0; 0; 2; 2; 0]%N)))) = Err EInvalidBool.
Proof. exact ex_C75_enum. Qed.

(** C76. [Vec<T>]: an 8-byte count n, then the read is exactly n reads of a [T], one after the other, all or
    nothing. *)
Theorem C76_vec_is_n_reads :
  forall (t : ty) (p : list byte) (i : nat),
    has_auth t = false -> i + 8 <= length p ->
    let d := Deserializer (Packet p) i in
    next_payload (TVec t) d =
      or_stay d (fun l => l) (read_n t (N.to_nat (u64_at p i)) (Deserializer (Packet p) (i + 8))).
Proof. exact p_C76_vec_is_n_reads. Qed.
Print Assumptions C76_vec_is_n_reads.

(** C76. The vector has exactly the announced number of elements, and they were all in the packet: an announced
    count for which not even the shortest elements would fit is an [Err]. *)
Theorem C76_announced_count :
  forall (t : ty) (p : list byte) (i : nat),
    has_auth t = false -> i + 8 <= length p ->
    let n := N.to_nat (u64_at p i) in
    (forall d v, next_payload (TVec t) (Deserializer (Packet p) i) = (d, Ok v) ->
       @length (tval t) v = n /\ i + 8 + n * min_size t <= index d <= length p) /\
    (length p < i + 8 + n * min_size t ->
       exists e, next_payload (TVec t) (Deserializer (Packet p) i) = (Deserializer (Packet p) i, Err e)).
Proof. exact p_C76_announced_count. Qed.
Print Assumptions C76_announced_count.

(** C76. Elements that may be empty are the exception: eight bytes make a vector of any number of elements below 2^64
    (so reading it takes that much time, and for elements that occupy memory that much memory). *)
Theorem C76_empty_elements_refuted :
  forall n : N, (n < 2 ^ 64)%N ->
    snd (next_payload (TVec TRawEnd) (start_deserialize (Packet (u64_bytes n)))) =
    Ok (repeat (RawEnd []) (N.to_nat n)).
Proof. exact p_C76_empty_elements_refuted. Qed.
Print Assumptions C76_empty_elements_refuted.

Example ex_C76_vec :
  snd (next_payload (TVec (TStruct (FCons TU16 (FCons TBool FNil))))
        (start_deserialize (Packet (u64_bytes 2 ++ bs [1; 2; 1; 3; 4; 0; 77]%N)))) =
    Ok [(258%N, (true, tt)); (772%N, (false, tt))] /\
  snd (next_payload (TVec TU16) (start_deserialize (Packet (u64_bytes 2 ++ bs [1; 2; 3]%N)))) = Err EEof /\
  (* the announced count 2^64 - 1 *)
  exists e, snd (next_payload (TVec TU16) (start_deserialize (Packet (repeat xff 8 ++ bs [1; 2; 3]%N)))) = Err e.
Proof. exact ex_C76_vec. Qed.

(** C77. Reading a struct is reading its fields in declaration order, all or nothing. *)
Theorem C77_read_struct :
  forall (fs : tys) (p : list byte) (i : nat),
    have_auth fs = false -> i <= length p ->
    let d := Deserializer (Packet p) i in
    next_payload (TStruct fs) d = or_stay d (fun v => v) (read_fields fs d).
Proof. exact p_C77_read_struct. Qed.
Print Assumptions C77_read_struct.

(** C77. Adding a struct is adding its fields in declaration order, all or nothing. *)
Theorem C77_add_struct :
  forall (fs : tys) (p : packet) (v : tvals fs),
    packet_add (TStruct fs) p v =
      match add_all p (fields fs v) with
      | Ok q => (q, Ok tt)
      | Err e => (p, Err e)
      | Panic q => (p, Panic q)
      end.
Proof. exact p_C77_add_struct. Qed.
Print Assumptions C77_add_struct.

Example ex_C77_struct :
  let d := start_deserialize (Packet (bs [0xFF; 0xFE]%N ++ u64_bytes 2 ++ bs [0x68; 0x69]%N ++ u64_bytes 1 ++ [x05])) in
  read_fields field_struct d = next_payload (TStruct field_struct) d /\
  snd (read_fields field_struct d) = Ok ((-2)%Z, (bs [0x68; 0x69]%N, ([x05], tt))) /\
  packet_add (TStruct field_struct) (Packet []) ((-2)%Z, (bs [0x68; 0x69]%N, ([x05], tt))) = (pntr d, Ok tt).
Proof. exact ex_C77_struct. Qed.

(** C78. Signed integers are two's complement, most significant byte first: every bit pattern is a number and every
    number in range has one. *)
Theorem C78_signed_integers :
  forall (p : list byte) (i : nat),
    (i + 1 <= length p -> next_payload TI8 (Deserializer (Packet p) i) =
                            (Deserializer (Packet p) (i + 1), Ok (as_signed 8 (n_at p i)))) /\
    (i + 2 <= length p -> next_payload TI16 (Deserializer (Packet p) i) =
                            (Deserializer (Packet p) (i + 2), Ok (as_signed 16 (u16_at p i)))) /\
    (i + 4 <= length p -> next_payload TI32 (Deserializer (Packet p) i) =
                            (Deserializer (Packet p) (i + 4), Ok (as_signed 32 (u32_at p i)))) /\
    (i + 8 <= length p -> next_payload TI64 (Deserializer (Packet p) i) =
                            (Deserializer (Packet p) (i + 8), Ok (as_signed 64 (u64_at p i)))).
Proof. exact p_C78_signed_integers. Qed.
Print Assumptions C78_signed_integers.

Example ex_C78_signed :
  as_signed 8 255 = (-1)%Z /\ as_signed 16 0x8000 = (-32768)%Z /\ as_signed 32 0x7FFFFFFF = 2147483647%Z /\
  snd (next_payload TI64 (start_deserialize (Packet (repeat xff 7 ++ [xfb])))) = Ok (-5)%Z.
Proof. exact ex_C78_signed. Qed.

(** C95. A char is read exactly when the bytes at the cursor begin with the UTF-8 encoding of a Unicode scalar value; then it is that
    character, and the cursor is behind it. Otherwise nothing moves, and the error is "unexpected end" at the end of the packet and "invalid char" before it. *)
Theorem C95_char_exact :
  forall (p : list byte) (i : nat),
    i <= length p ->
    (forall c rest, is_scalar c -> skipn i p = utf8_char c ++ rest ->
       next_payload TChar (Deserializer (Packet p) i) = (Deserializer (Packet p) (i + length (utf8_char c)), Ok c)) /\
    ((forall c rest, is_scalar c -> skipn i p <> utf8_char c ++ rest) ->
       next_payload TChar (Deserializer (Packet p) i) =
         (Deserializer (Packet p) i, Err (if i =? length p then EEof else EInvalidChar))).
Proof. exact p_C95_char_exact. Qed.
Print Assumptions C95_char_exact.

(** '€'; a surrogate, an overlong '/', a stray continuation byte, a character cut in the middle *)
Example ex_C95_char :
  next_payload TChar (start_deserialize (Packet (bs [0xE2; 0x82; 0xAC; 0x41]%N))) =
    (Deserializer (Packet (bs [0xE2; 0x82; 0xAC; 0x41]%N)) 3, Ok 0x20AC%N) /\
  Forall (fun b => snd (next_payload TChar (start_deserialize (Packet (bs b)))) = Err EInvalidChar)
    [[0xED; 0xA0; 0x80]; [0xC0; 0xAF]; [0x80]; [0xF0; 0x9F; 0x98]]%N /\
  (forall c rest, is_scalar c -> skipn 0 (bs [0xC0; 0xAF]%N) <> utf8_char c ++ rest).
Proof. exact ex_C95_char. Qed.

(** C96. A u128 or i128 is 16 bytes, big-endian (two's complement); an f32 is the 4 bytes, an f64 the 8 bytes of its bits, big-endian: every
    bit pattern is accepted as it is, NaNs with their payload, infinities and signed zeros included. With fewer bytes left the result
    is [Err] and nothing moves. *)
Theorem C96_wide_numbers :
  forall (p : list byte) (i : nat),
    let u128_at := (u64_at p i * 2 ^ 64 + u64_at p (i + 8))%N in
    (i + 16 <= length p -> next_payload TU128 (Deserializer (Packet p) i) = (Deserializer (Packet p) (i + 16), Ok u128_at)) /\
    (i + 16 <= length p ->
       next_payload TI128 (Deserializer (Packet p) i) = (Deserializer (Packet p) (i + 16), Ok (as_signed 128 u128_at))) /\
    (i + 4 <= length p -> next_payload TF32 (Deserializer (Packet p) i) = (Deserializer (Packet p) (i + 4), Ok (u32_at p i))) /\
    (i + 8 <= length p -> next_payload TF64 (Deserializer (Packet p) i) = (Deserializer (Packet p) (i + 8), Ok (u64_at p i))).
Proof. exact p_C96_wide_numbers. Qed.
Print Assumptions C96_wide_numbers.

Theorem C96_too_short :
  forall (p : list byte) (i : nat),
    i <= length p ->
    (length p < i + 16 -> next_payload TU128 (Deserializer (Packet p) i) = (Deserializer (Packet p) i, Err EEof)) /\
    (length p < i + 16 -> next_payload TI128 (Deserializer (Packet p) i) = (Deserializer (Packet p) i, Err EEof)) /\
    (length p < i + 4 -> next_payload TF32 (Deserializer (Packet p) i) = (Deserializer (Packet p) i, Err EEof)) /\
    (length p < i + 8 -> next_payload TF64 (Deserializer (Packet p) i) = (Deserializer (Packet p) i, Err EEof)).
Proof. exact p_C96_too_short. Qed.
Print Assumptions C96_too_short.

(** A signalling NaN keeps its bits in both directions; i128::MIN. *)
Example ex_C96_numbers :
  next_payload TF32 (start_deserialize (Packet (bs [0x7F; 0xA0; 0; 1]%N))) =
    (Deserializer (Packet (bs [0x7F; 0xA0; 0; 1]%N)) 4, Ok 0x7FA00001%N) /\
  packet_raw (fst (packet_add TF32 (Packet []) 0x7FA00001%N)) = bs [0x7F; 0xA0; 0; 1]%N /\
  snd (next_payload TI128 (start_deserialize (Packet (x80 :: repeat x00 15)))) = Ok (- 2 ^ 127)%Z /\
  packet_raw (fst (packet_add TU128 (Packet []) (2 ^ 128 - 2)%N)) = repeat xff 15 ++ [xfe].
Proof. exact ex_C96_numbers. Qed.
