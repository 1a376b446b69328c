(** * Prop_Custom: property theorems (statements only; proofs in CustomProofs.v) *)
From Coq Require Import Strings.String Sorting.Sorted.
From Verif Require Import Base Serde Codec Universe Spec SerdeFacts CodecFacts Utf8Facts UniverseFacts Packet PacketFacts Custom CustomSpec FieldProofs CustomProofs.
Open Scope nat_scope.

(** C97. Types derived from the library's are one case. *)
Theorem C97_derived_types :
  forall (t : ty) (p : packet) (x : tval t) (d : deserializer),
    custom_add (derived t) p x = packet_add t p x /\ custom_next (derived t) d = next_payload t d.
Proof. exact p_C97_derived_types. Qed.
Print Assumptions C97_derived_types.

(** C97. Whatever the impls do: a value parsed from the bytes [used] at the cursor is returned if it can be serialized again, and the cursor
    moves by the number of bytes of that serialization, so it is behind the payload exactly if both have the same length. A value that
    cannot be serialized is not returned, and nothing moves. *)
Theorem C97_cursor :
  forall (A : Type) (I : impl A) (before used after : list byte) (x : A),
    let d := Deserializer (Packet (before ++ used ++ after)) (length before) in
    parse I (used ++ after) = Ok (x, after) ->
    (forall bytes, serializes I x bytes ->
       exists d', custom_next I d = (d', Ok x) /\ pntr d' = pntr d /\ index d' = index d + length bytes /\
         (index d' = length (before ++ used) <-> length bytes = length used)) /\
    (forall e, calls I x = Err e -> custom_next I d = (d, Err e)).
Proof. exact p_C97_cursor. Qed.
Print Assumptions C97_cursor.

(** C97. If a serialization is longer than what is left, the cursor is behind the end of the packet, and the next read of any
    payload panics. *)
Theorem C97_overrun :
  forall (A : Type) (I : impl A) (p : list byte) (i : nat) (x : A) (after bytes : list byte),
    i <= length p ->
    parse I (skipn i p) = Ok (x, after) -> serializes I x bytes -> length p < i + length bytes ->
    let d := fst (custom_next I (Deserializer (Packet p) i)) in
    snd (custom_next I (Deserializer (Packet p) i)) = Ok x /\
    forall (B : Type) (J : impl B), exists site, custom_next J d = (d, Panic site).
Proof. exact p_C97_overrun. Qed.
Print Assumptions C97_overrun.

(** C97. Payloads whose impls fit together are read back as they were added, in any mixture of types, and the cursor ends behind the last. *)
Theorem C97_sequence :
  forall (l : list item) (p : packet),
    Forall (fun it => fits (item_impl it) (item_value it)) l ->
    exists p', add_items l p = (p', Ok tt) /\
      forall q after, packet_bytes q = packet_bytes p' ++ after ->
        reads_items l (Deserializer q (length (packet_bytes p))) (length (packet_bytes p')).
Proof. exact p_C97_sequence. Qed.
Print Assumptions C97_sequence.

(** C97. The impls of self-delimiting types of the universe fit together for every value that can be encoded and arrives unchanged. *)
Theorem C97_derived_types_fit :
  forall (t : ty) (x : tval t),
    self_delimiting t = true -> in_range t x -> encodable t x -> transmitted t x = x -> fits (derived t) x.
Proof. exact p_C97_derived_types_fit. Qed.
Print Assumptions C97_derived_types_fit.

Example ex_C97_cursor :
  (* it fits together with itself *)
  fits legacy 7%N /\
  (* the short form: read, the cursor is behind the end, and every further read panics *)
  custom_next legacy (start_deserialize (Packet [x07])) = (Deserializer (Packet [x07]) 8, Ok 7%N) /\
  (forall B (J : impl B), exists site, snd (custom_next J (Deserializer (Packet [x07]) 8)) = Panic site).
Proof. exact ex_C97_cursor. Qed.

Example ex_C97_sequence :
  let l := [Item legacy 7%N; Item (derived TString) (bs [0x68; 0x69]%N); Item (derived TU16) 513%N] in
  Forall (fun it => fits (item_impl it) (item_value it)) l /\
  fst (add_items l (Packet [xff])) =
    Packet (xff :: u64_bytes 7 ++ u64_bytes 2 ++ bs [0x68; 0x69; 2; 1]%N).
Proof. exact ex_C97_sequence. Qed.

(** C98. Reading a [BTreeMap<K, V>] succeeds exactly if reading a vector of pairs does at the same place, and fails with the same error; the map
    has, for every key, the value of the last pair with that key. The cursor then is not behind the pairs, but short of that by the
    bytes of the pairs that were replaced. *)
Theorem C98_read :
  forall (k v : ty) (cmp : tval k -> tval k -> comparison) (p : list byte) (i : nat),
    total_order cmp -> has_auth k = false -> has_auth v = false -> i <= length p ->
    let d := Deserializer (Packet p) i in
    match next_payload (TVec (entry k v)) d with
    | (d', Ok l) =>
        exists m d'', custom_next (btreemap k v cmp) d = (d'', Ok m) /\ pntr d'' = pntr d /\
          index d'' + replaced_bytes cmp l = index d' /\
          ascending cmp m /\ forall x, lookup cmp x m = lookup cmp x l
    | (_, Err e) => custom_next (btreemap k v cmp) d = (d, Err e)
    | (_, Panic _) => False
    end.
Proof. exact p_C98_read. Qed.
Print Assumptions C98_read.

(** C98. So the cursor is where the next payload begins if no key comes twice. *)
Theorem C98_distinct_keys :
  forall (k v : ty) (cmp : tval k -> tval k -> comparison) (p : list byte) (i : nat) d' (l : list (tval (entry k v))),
    total_order cmp -> has_auth k = false -> has_auth v = false -> i <= length p ->
    next_payload (TVec (entry k v)) (Deserializer (Packet p) i) = (d', Ok l) ->
    NoDup (map (key_of k v) l) ->
    exists m, custom_next (btreemap k v cmp) (Deserializer (Packet p) i) = (d', Ok m).
Proof. exact p_C98_distinct_keys. Qed.
Print Assumptions C98_distinct_keys.

(** C98, the exception: if a key comes twice, the cursor is inside the map. *)
Theorem C98_duplicate_keys_refuted :
  forall (k v : ty) (cmp : tval k -> tval k -> comparison) (p : list byte) (i : nat) d' (l : list (tval (entry k v))),
    total_order cmp -> has_auth k = false -> has_auth v = false -> i <= length p -> 0 < min_size k ->
    next_payload (TVec (entry k v)) (Deserializer (Packet p) i) = (d', Ok l) ->
    ~ NoDup (map (key_of k v) l) ->
    exists m d'', custom_next (btreemap k v cmp) (Deserializer (Packet p) i) = (d'', Ok m) /\ index d'' < index d'.
Proof. exact p_C98_duplicate_keys_refuted. Qed.
Print Assumptions C98_duplicate_keys_refuted.

(** C98. A map that was added is read back. *)
Theorem C98_round_trip :
  forall (k v : ty) (cmp : tval k -> tval k -> comparison) (m : list (tval (entry k v))),
    total_order cmp -> ascending cmp m -> self_delimiting k = true -> self_delimiting v = true ->
    (len m < 2 ^ 64)%N -> Forall (fun e => in_range (entry k v) e /\ encodable (entry k v) e /\ transmitted (entry k v) e = e) m ->
    fits (btreemap k v cmp) m.
Proof. exact p_C98_round_trip. Qed.
Print Assumptions C98_round_trip.

(** The key 1 twice, then a u16 that was sent as 0x0909: the receiver takes the second pair for it. *)
Example ex_C98_map :
  let one := bs [0; 0; 0; 0; 0; 0; 0; 2; 1; 5; 2; 6; 9; 9]%N in
  let twice := bs [0; 0; 0; 0; 0; 0; 0; 2; 1; 5; 1; 6; 9; 9]%N in
  let read p := let '(d, m) := custom_next (btreemap TU8 TU8 cmp_u8) (start_deserialize (Packet p)) in
                (m, snd (next_payload TU16 d)) in
  read one = (Ok [(x01, (x05, tt)); (x02, (x06, tt))], Ok 0x0909%N) /\
  read twice = (Ok [(x01, (x06, tt))], Ok 0x0106%N) /\
  ascending (k := TU8) (v := TU8) cmp_u8 [(x01, (x05, tt)); (x02, (x06, tt))] /\
  ~ NoDup (map (key_of TU8 TU8) [(x01, (x05, tt)); (x01, (x06, tt))]).
Proof. exact ex_C98_map. Qed.
