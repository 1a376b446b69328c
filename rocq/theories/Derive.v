(** * Derive: [#[derive(Serialize, Deserialize)]] over arbitrary impls, and the impls of the library that Universe.v leaves out

    Universe.v has the library's payloads and everything derived from them. Custom.v takes any pair of impls as it is. Here: what
    serde_derive makes of parts with arbitrary impls, and the impls of [Header], [Packet] and [Signature]. *)
From Coq Require Import Strings.String.
From Verif Require Import Base Serde Codec Universe Packet Custom.
Open Scope nat_scope.

(** ** Structs and enums with fields or variants of any types *)
Record part := Part { part_type : Type; part_impl : impl part_type }.
Arguments Part {part_type}.
Fixpoint values (l : list part) : Type :=
  match l with
  | [] => unit
  | p :: l => (part_type p * values l)%type
  end.
Fixpoint choice (l : list part) : Type :=
  match l with
  | [] => Empty_set
  | p :: l => (part_type p + choice l)%type
  end.

(** derived [Serialize] of a struct: [serialize_struct], then each field (as in Universe.v) *)
Fixpoint fields_calls (l : list part) : values l -> outcome (list ev) :=
  match l with
  | [] => fun _ => Ok []
  | p :: l => fun v =>
      let* a := calls (part_impl p) (fst v) in
      let* b := fields_calls l (snd v) in
      Ok (a ++ b)
  end.
(** derived [Deserialize] of a struct: [visit_seq] with one [next_element] per field *)
Fixpoint fields_parse (l : list part) : nat -> access -> outcome (values l * access) :=
  match l with
  | [] => fun _ s => Ok (tt, s)
  | p :: l => fun i s =>
      let* (x, s) := next_required (parse (part_impl p)) (EInvalidLength i "struct") s in
      let* (xs, s) := fields_parse l (S i) s in
      Ok ((x, xs), s)
  end.
Definition struct_of (l : list part) : impl (values l) :=
  Impl (fun v => let* r := fields_calls l v in Ok (EvStruct (N.of_nat (length l)) :: r))
       (deserialize_tuple (N.of_nat (length l)) (fields_parse l 0)).

(** derived impls of an enum: the index of the variant, then what it contains *)
Fixpoint variant_calls (l : list part) : N -> choice l -> outcome (list ev) :=
  match l with
  | [] => fun _ v => match v with end
  | p :: l => fun i v =>
      match v with
      | inl x => let* e := calls (part_impl p) x in Ok (EvVariant i :: e)
      | inr y => variant_calls l (N.succ i) y
      end
  end.
Fixpoint variant_parse (l : list part) : N -> list byte -> dres (choice l) :=
  match l with
  | [] => fun _ _ => Err (ECustom "invalid value: variant index")
  | p :: l => fun i b =>
      if (i =? 0)%N then let* (x, b) := parse (part_impl p) b in Ok (inl x, b)
      else let* (y, b) := variant_parse l (N.pred i) b in Ok (inr y, b)
  end.
Definition enum_of (l : list part) : impl (choice l) :=
  Impl (variant_calls l 0) (fun b => let* (i, r) := de_u32 b in variant_parse l i r).

(** serde's impls for [Option<T>], [Vec<T>] and arrays [[T; n]], the latter as lists of [n] elements *)
Definition option_of {A} (I : impl A) : impl (option A) :=
  Impl (fun v => match v with None => Ok [EvNone] | Some x => let* r := calls I x in Ok (EvSome :: r) end) (de_option (parse I)).
Definition vec_of {A} (I : impl A) : impl (list A) :=
  Impl (fun v => let* r := ser_seq (map (calls I) v) in Ok (EvSeq (N.of_nat (length v)) :: r)) (de_vec (parse I)).
Definition array_of {A} (n : nat) (I : impl A) : impl (list A) :=
  Impl (fun v => let* r := ser_seq (map (calls I) v) in Ok (EvTuple (N.of_nat n) :: r)) (seq_elements (parse I) n).

(** ** Impls of the library that are in no payload of its own *)

(** [impl Serialize for Header], [impl Deserialize for Header] (header.rs:83-208) *)
Definition header_impl : impl header := Impl ser_header de_header.

(** [#[derive(Serialize, Deserialize)] pub struct Packet(pub Vec<u8>)] (serialization/mod.rs:20-22): a newtype struct, which bincode
    writes and reads as its content *)
Definition packet_impl : impl packet :=
  Impl (fun p => ser_vec_u8 (packet_bytes p))
       (fun b => let* (v, r) := de_vec_u8 b in Ok (Packet v, r)).

(** [packet.add(&signature)]: [impl Ipv8Payload for Signature], [impl Serialize for Signature] (signature.rs:38-51). There is no
    [Deserialize]. *)
Definition add_signature (p : packet) (s : signature) : packet * outcome unit := packet_extend p (ser_signature s).
