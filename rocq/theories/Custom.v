(** * Custom: payload types with hand-written [Serialize] and [Deserialize] impls *)

(** [Packet::add] and [PacketDeserializer::next_payload] take every type that implements [Ipv8Payload], [Serialize] and [Deserialize]
    (serialization/mod.rs:45-48, 172-175); Universe.v covers the library's own types and what can be derived from them. Here the two impls
    are arbitrary functions, given by the calls they make to bincode's serializer and by what they do with the unread bytes.
    Simplification: an impl that keeps state between calls is not one. *)
From Coq Require Import Strings.String.
From Verif Require Import Base Serde Codec Universe Packet.
Open Scope nat_scope.

Record impl (A : Type) := Impl {
  calls : A -> outcome (list ev);          (* impl Serialize for A *)
  parse : list byte -> dres A              (* impl Deserialize for A: the value and the unread bytes *)
}.
Arguments Impl {A}. Arguments calls {A}. Arguments parse {A}.

(** The impls of a type of the universe *)
Definition derived (t : ty) : impl (tval t) := Impl (ser t) (de t).

(** [Packet::add::<A>] (serialization/mod.rs:172-179) *)
Definition custom_add {A} (I : impl A) (p : packet) (obj : A) : packet * outcome unit :=
  packet_extend p (calls I obj).

(** [PacketDeserializer::next_payload::<A>] (serialization/mod.rs:45-69) *)
Definition custom_next {A} (I : impl A) (d : deserializer) : deserializer * outcome A :=
  let r :=
    let* s := or_panic (slice_from (packet_bytes (pntr d)) (index d)) in
    let* (res, _) := parse I s in
    let* n := bincode_serialized_size (calls I res) in
    Ok (res, n) in
  match r with
  | Ok (res, n) => ({| pntr := pntr d; index := index d + n |}, Ok res)
  | Err e => (d, Err e)
  | Panic p => (d, Panic p)
  end.

(** ** serde's impls for [std::collections::BTreeMap<K, V>] *)
Section BTreeMap.
Context (k v : ty) (cmp : tval k -> tval k -> comparison).   (* impl Ord for K *)

(** A map is the list of its entries in ascending order of the keys. An entry is laid out like the pair (K, V). *)
Definition entry : ty := TStruct (FCons k (FCons v FNil)).
Definition key_of (e : tval entry) : tval k := fst e.
Definition value_of (e : tval entry) : tval v := fst (snd e).

(** [BTreeMap::insert]: replaces the value of a key that is there *)
Fixpoint insert (e : tval entry) (m : list (tval entry)) : list (tval entry) :=
  match m with
  | [] => [e]
  | f :: r =>
      match cmp (key_of e) (key_of f) with
      | Lt => e :: f :: r
      | Eq => (key_of f, snd e) :: r
      | Gt => f :: insert e r
      end
  end.

(** [serializer.collect_map(self)]: [serialize_map(Some(len))], which bincode writes like the length of a sequence, then the entries in
    ascending order *)
Definition ser_map (m : list (tval entry)) : outcome (list ev) :=
  let* es := ser_seq (map (ser entry) m) in
  Ok (EvSeq (N.of_nat (length m)) :: es).

(** [visit_map]: [while let Some((key, value)) = map.next_entry()? { values.insert(key, value); }]. Simplification: here all entries are
    read before the first is inserted. *)
Definition de_map (b : list byte) : dres (list (tval entry)) :=
  let* (n, r) := de_u64 b in
  let* (es, r) := seq_elements (de entry) (N.to_nat n) r in
  Ok (fold_left (fun m e => insert e m) es [], r).

Definition btreemap : impl (list (tval entry)) := Impl ser_map de_map.
End BTreeMap.
