(** * Prop_Cursor: property theorems (statements only; proofs in CursorProofs.v) *)
From Coq Require Import Strings.String.
From Verif Require Import Base Serde Codec Universe Spec SerdeFacts CodecFacts UniverseFacts Packet Client PacketFacts CodecProofs CursorProofs.
Open Scope nat_scope.

(** C22. No bytes whatsoever make [next_payload] panic, for types without authentication payload. *)
Theorem C22_no_panic :
  forall (t : ty) (p : list byte) (i : nat),
    has_auth t = false -> i <= length p ->
    (exists j v, next_payload t (Deserializer (Packet p) i) = (Deserializer (Packet p) j, Ok v)) \/
    (exists e, next_payload t (Deserializer (Packet p) i) = (Deserializer (Packet p) i, Err e)).
Proof. exact p_C22_no_panic. Qed.
Print Assumptions C22_no_panic.

(** C22. Only the cursor condition matters: beyond the end every read panics. *)
Theorem C22_cursor_beyond_end_panics :
  forall (t : ty) (p : list byte) (i : nat),
    length p < i ->
    snd (next_payload t (Deserializer (Packet p) i)) = Panic PSliceIndex /\
    peek_header (Deserializer (Packet p) i) = Panic PSliceIndex.
Proof. exact p_C22_cursor_beyond_end_panics. Qed.
Print Assumptions C22_cursor_beyond_end_panics.

Example ex_C22_garbage :
  has_auth example_ty = false /\
  snd (next_payload example_ty (Deserializer (Packet (repeat xff 40)) 3)) = Err EEof /\
  snd (next_payload (TStruct (FCons TVecU8 FNil)) (Deserializer (Packet (repeat xff 40)) 3)) = Err EEof.
Proof. exact ex_C22_garbage. Qed.

(** C23. Reading an authentication payload, for every input: an error when the announced key blob is
    incomplete or has the wrong prefix, the keys at their fixed places when it has at least 74 bytes and
    the right prefix, and a panic otherwise. *)
Theorem C23_auth_exact :
  forall (p : list byte) (i : nat),
    i <= length p ->
    let d := Deserializer (Packet p) i in
    let n := N.to_nat (u16_at p i) in
    (~ (i + 2 <= length p /\ i + 2 + n <= length p) -> next_payload TBinMember d = (d, Err EEof)) /\
    (i + 2 <= length p /\ i + 2 + n <= length p ->
       (n < 10 -> next_payload TBinMember d = (d, Panic PSliceIndex)) /\
       (10 <= n -> firstn 10 (skipn (i + 2) p) <> ascii "LibNaCLPK:" ->
          exists m, next_payload TBinMember d = (d, Err (ECustom m))) /\
       (10 <= n < 74 -> firstn 10 (skipn (i + 2) p) = ascii "LibNaCLPK:" ->
          next_payload TBinMember d = (d, Panic PSliceIndex)) /\
       (74 <= n -> firstn 10 (skipn (i + 2) p) = ascii "LibNaCLPK:" ->
          next_payload TBinMember d =
            (Deserializer (Packet p) (i + 76),
             Ok {| bm_public_key_bin := firstn 32 (skipn (i + 44) p);
                   bm_encryption_key_bin := firstn 32 (skipn (i + 12) p) |}))).
Proof. exact p_C23_auth_exact. Qed.
Print Assumptions C23_auth_exact.

(** C23. Hence a packet of two bytes crashes the reader: rejection without crashing is refuted. *)
Theorem C23_no_panic_refuted :
  exists p, length p = 2 /\ snd (next_payload TBinMember (start_deserialize (Packet p))) = Panic PSliceIndex.
Proof. exact p_C23_no_panic_refuted. Qed.
Print Assumptions C23_no_panic_refuted.

Example ex_C23_each_case :
  let blob n := u16_bytes (N.of_nat n) ++ ascii "LibNaCLPK:" ++ repeat x07 (n - 10) in
  snd (next_payload TBinMember (start_deserialize (Packet (blob 73)))) = Panic PSliceIndex /\
  snd (next_payload TBinMember (start_deserialize (Packet (blob 74)))) = Ok (BinMember (repeat x07 32) (repeat x07 32)) /\
  snd (next_payload TBinMember (start_deserialize (Packet (removelast (blob 74))))) = Err EEof.
Proof. exact ex_C23_each_case. Qed.

(** C24. A failed (or panicking) read changes neither packet nor cursor. *)
Theorem C24_failed_read_no_effect :
  forall (t : ty) (d d' : deserializer) (r : outcome (tval t)),
    next_payload t d = (d', r) -> is_ok r = false -> d' = d.
Proof. exact p_C24_failed_read_no_effect. Qed.
Print Assumptions C24_failed_read_no_effect.

Theorem C24_failed_pop_no_effect :
  forall (d d' : deserializer) (r : outcome header),
    pop_header d = (d', r) -> is_ok r = false -> d' = d.
Proof. exact p_C24_failed_pop_no_effect. Qed.
Print Assumptions C24_failed_pop_no_effect.

(** C24. So after a failed read any other type can be tried as if nothing had happened. *)
Theorem C24_retry :
  forall (t t' : ty) (d d' : deserializer) (e : error),
    next_payload t d = (d', Err e) -> next_payload t' d' = next_payload t' d.
Proof. exact p_C24_retry. Qed.
Print Assumptions C24_retry.

Example ex_C24_retry :
  let d := start_deserialize (Packet [x00; x02; x05; x06]) in
  exists e, next_payload TTime d = (d, Err e) /\ snd (next_payload TVarLen16 d) = Ok (VarLen16 [x05; x06]).
Proof. exact ex_C24_retry. Qed.

(** C25. The new cursor is exactly the end of what determines the result: cutting the packet there gives
    the same result, cutting it anywhere earlier is an error. *)
Theorem C25_cursor_exact :
  forall (t : ty) (p : list byte) (i j : nat) (v : tval t),
    self_delimiting t = true -> has_auth t = false -> i <= length p ->
    next_payload t (Deserializer (Packet p) i) = (Deserializer (Packet p) j, Ok v) ->
    i <= j <= length p /\
    next_payload t (Deserializer (Packet (firstn j p)) i) = (Deserializer (Packet (firstn j p)) j, Ok v) /\
    forall k, i <= k < j ->
      exists e, next_payload t (Deserializer (Packet (firstn k p)) i) = (Deserializer (Packet (firstn k p)) i, Err e).
Proof. exact p_C25_cursor_exact. Qed.
Print Assumptions C25_cursor_exact.

(** C25. A type ending in raw bytes takes everything up to the end of the packet. *)
Theorem C25_raw_tail_reaches_end :
  forall (t : ty) (p : list byte) (i j : nat) (v : tval t),
    ends_in_raw t = true -> has_auth t = false ->
    i <= length p -> fits_memory p ->
    next_payload t (Deserializer (Packet p) i) = (Deserializer (Packet p) j, Ok v) ->
    j = length p.
Proof. exact p_C25_raw_tail_reaches_end. Qed.
Print Assumptions C25_raw_tail_reaches_end.

(** C25. For an authentication payload the cursor moves by 76 whatever the length n >= 74 of the key
    blob is, although all 2 + n bytes must be present. *)
Theorem C25_auth_cursor :
  forall (p : list byte) (i j : nat) (v : bin_member),
    i <= length p ->
    next_payload TBinMember (Deserializer (Packet p) i) = (Deserializer (Packet p) j, Ok v) ->
    let blob_end := i + 2 + N.to_nat (u16_at p i) in
    j = i + 76 /\ j <= blob_end <= length p /\ (j = blob_end <-> u16_at p i = 74%N) /\
    forall k, i <= k < blob_end ->
      exists e, next_payload TBinMember (Deserializer (Packet (firstn k p)) i) =
                (Deserializer (Packet (firstn k p)) i, Err e).
Proof. exact p_C25_auth_cursor. Qed.
Print Assumptions C25_auth_cursor.

(** C25. So "the cursor is behind the payload" is refuted for key blobs of 75 bytes: the next read starts
    inside the blob. *)
Theorem C25_auth_cursor_refuted :
  exists (p : list byte) (d : deserializer) (v : bin_member),
    next_payload TBinMember (start_deserialize (Packet p)) = (d, Ok v) /\
    length p = 77 /\ index d = 76 /\ snd (next_payload TU8 d) = Ok x63.
Proof. exact p_C25_auth_cursor_refuted. Qed.
Print Assumptions C25_auth_cursor_refuted.

Example ex_C25_struct :
  exists v, next_payload example_ty (Deserializer (fst (packet_add example_ty (Packet [xaa]) example_val)) 1)
            = (Deserializer (fst (packet_add example_ty (Packet [xaa]) example_val)) 23, Ok v).
Proof. exact ex_C25_struct. Qed.

(** C26. Over any history of reads the packet stays the same, the cursor never goes back nor past the
    end, and only reads of authentication payloads can panic. *)
Theorem C26_read_histories :
  forall (C : ed25519) (l : list op) (p : packet) (i : nat) (d : deserializer) (rs : list (outcome unit)),
    Forall (fun o => is_read o = true) l -> i <= length (packet_raw p) ->
    do_ops C {| pntr := p; index := i |} l = (d, rs) ->
    pntr d = p /\ i <= index d <= length (packet_raw p) /\ length rs = length l /\
    (Forall (fun o => reads_auth o = false) l -> Forall (fun r => forall q, r <> Panic q) rs).
Proof. exact p_C26_read_histories. Qed.
Print Assumptions C26_read_histories.

Example ex_C26_history :
  let p := fst (packet_add TTime (Packet (header_layout (repeat x2a 20) x01)) (TimeDistribution 5%N)) in
  forall C, do_ops C (start_deserialize p) [OPeek; ONext TIntroductionResponse; OPop; ONext TU64; ONext TU8]
            = (Deserializer p 31, [Ok tt; Err EEof; Ok tt; Ok tt; Err EEof]).
Proof. exact ex_C26_history. Qed.

(** C27. A decoded value takes no more bytes when written again than there were left to read. *)
Theorem C27_no_amplification :
  forall (t : ty) (p : list byte) (i : nat) (d : deserializer) (v : tval t) (q : packet),
    i <= length p ->
    next_payload t (Deserializer (Packet p) i) = (d, Ok v) ->
    exists more, packet_add t q v = (Packet (packet_raw q ++ more), Ok tt) /\
      length more <= length p - i /\ index d = i + length more.
Proof. exact p_C27_no_amplification. Qed.
Print Assumptions C27_no_amplification.

Example ex_C27_announced_more :
  snd (next_payload TVarLen64 (start_deserialize (Packet (repeat xff 8 ++ [x01])))) = Err EEof /\
  snd (next_payload TVarLen64 (start_deserialize (Packet (repeat x00 7 ++ [x01; x09])))) = Ok (VarLen64 [x09]).
Proof. exact ex_C27_announced_more. Qed.
