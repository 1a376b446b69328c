(** * Prop_Derive: property theorems (statements only; proofs in DeriveProofs.v) *)
From Coq Require Import Strings.String.
From Verif Require Import Base Serde Codec Universe Spec SerdeFacts CodecFacts UniverseFacts Packet PacketFacts HeaderProofs Custom CustomSpec CustomProofs Derive DeriveSpec DeriveProofs.
Open Scope nat_scope.

(** C126. Reading a [Header] as a payload is taking the header of a packet, wherever the cursor is: same result, same position afterwards. *)
Theorem C126_header_as_a_payload :
  forall d : deserializer, custom_next header_impl d = pop_header d.
Proof. exact p_C126_header_as_a_payload. Qed.
Print Assumptions C126_header_as_a_payload.

(** C126. What is written for a header: the version, the community id, the low byte of the message type; a missing id or type is refused, with these words. *)
Theorem C126_header_bytes :
  forall h : header,
  bincode_serialize (calls header_impl h) =
  match h_mid_hash h, h_message_type h with
  | Some mid, Some t => Ok (header_layout mid (byte_of_N t))
  | None, _ => Err (ECustom "mid_hash was empty and this wasn't expected")
  | Some _, None => Err (ECustom "Message type was empty and this wasn't expected")
  end.
Proof. exact p_C126_header_bytes. Qed.
Print Assumptions C126_header_bytes.

(** C126. A header that is part of a payload is read back from its bytes exactly if it has an id of 20 bytes, a message type below 256 and says it has 23 bytes; every header that was read is like that, and no bytes make reading one panic. *)
Theorem C126_header_fits :
  (forall h, fits header_impl h <->
     exists mid t, h_mid_hash h = Some mid /\ length mid = 20 /\ h_message_type h = Some t /\ (t < 256)%N /\ h_size h = 23) /\
  consistent header_impl /\ measured header_impl /\ never_panics header_impl.
Proof. exact p_C126_header_fits. Qed.
Print Assumptions C126_header_fits.

(** C126. A [Packet] (not a [NestedPacket]) that is part of a payload is written as its length in 8 bytes and its bytes, whatever its size, and read back. *)
Theorem C126_packet :
  forall p : packet, (N.of_nat (length (packet_bytes p)) < 2 ^ 64)%N ->
  serializes packet_impl p (u64_bytes (N.of_nat (length (packet_bytes p))) ++ packet_bytes p) /\ fits packet_impl p /\
  consistent packet_impl /\ measured packet_impl /\ never_panics packet_impl.
Proof. exact p_C126_packet. Qed.
Print Assumptions C126_packet.

(** C126. [Packet::sign] is: make a signature of the packet, add it as a payload. Adding a signature appends its 64 bytes and never fails. *)
Theorem C126_signature :
  forall (C : ed25519) (p : packet) (k : keypair C),
  (forall s : signature, add_signature p s = (Packet (packet_bytes p ++ sig_bytes s), Ok tt)) /\
  packet_sign (C := C) p k = match sign_packet (C := C) k p with Ok s => Ok (fst (add_signature p s)) | Err e => Err e | Panic q => Panic q end.
Proof. exact p_C126_signature. Qed.
Print Assumptions C126_signature.

(** C127. A struct derived from parts: if every part is written again in as many bytes as were read, so is the struct; if no part panics, it does not; if everything read from the parts is read again from what is written for it, the same holds of the struct. A value is read back if its fields are. *)
Theorem C127_structs :
  forall l : list part,
  (Forall (fun p => measured (part_impl p)) l -> measured (struct_of l)) /\
  (Forall (fun p => never_panics (part_impl p)) l -> never_panics (struct_of l)) /\
  (Forall (fun p => consistent (part_impl p)) l -> consistent (struct_of l)) /\
  (forall x, all_fit l x -> fits (struct_of l) x).
Proof. exact p_C127_structs. Qed.
Print Assumptions C127_structs.

(** C127. The same of enums, ... *)
Theorem C127_enums :
  forall l : list part, (N.of_nat (length l) <= 2 ^ 32)%N ->
  (Forall (fun p => measured (part_impl p)) l -> measured (enum_of l)) /\
  (Forall (fun p => never_panics (part_impl p)) l -> never_panics (enum_of l)) /\
  (Forall (fun p => consistent (part_impl p)) l -> consistent (enum_of l)) /\
  (forall x, chosen_fits l x -> fits (enum_of l) x).
Proof. exact p_C127_enums. Qed.
Print Assumptions C127_enums.

(** C127. ... of options, vectors and arrays. *)
Theorem C127_options_vectors_arrays :
  forall (A : Type) (I : impl A) (n : nat),
  (measured I -> measured (option_of I) /\ measured (vec_of I) /\ measured (array_of n I)) /\
  (never_panics I -> never_panics (option_of I) /\ never_panics (vec_of I) /\ never_panics (array_of n I)) /\
  (consistent I -> consistent (option_of I) /\ consistent (vec_of I) /\ consistent (array_of n I)) /\
  (forall x, fits (option_of I) None /\ (fits I x -> fits (option_of I) (Some x))) /\
  (forall l, Forall (fits I) l -> ((N.of_nat (length l) < 2 ^ 64)%N -> fits (vec_of I) l) /\ (length l = n -> fits (array_of n I) l)).
Proof. exact p_C127_options_vectors_arrays. Qed.
Print Assumptions C127_options_vectors_arrays.

(** C127. The types of Universe.v are such parts: all but those with an authentication payload are measured and never panic; those that delimit themselves are consistent, too. *)
Theorem C127_library_types :
  forall t : ty,
  (has_auth t = false -> measured (derived t) /\ never_panics (derived t)) /\
  (self_delimiting t = true -> consistent (derived t)).
Proof. exact p_C127_library_types. Qed.
Print Assumptions C127_library_types.

(** C127. Where all parts are types of Universe.v, these derived impls are the ones there. *)
Theorem C127_the_same_derive :
  (forall (fs : tys), (forall v, calls (struct_of (parts_of fs)) (fields_of fs v) = ser (TStruct fs) v) /\
     (forall b, parse (struct_of (parts_of fs)) b = let* (v, r) := de (TStruct fs) b in Ok (fields_of fs v, r)) /\
     (forall v, fields_from fs (fields_of fs v) = v) /\ (forall v, fields_of fs (fields_from fs v) = v)) /\
  (forall (vs : tys), (forall v, calls (enum_of (parts_of vs)) (variant_of vs v) = ser (TEnum vs) v) /\
     (forall b, parse (enum_of (parts_of vs)) b = let* (v, r) := de (TEnum vs) b in Ok (variant_of vs v, r))) /\
  (forall t, (forall v, calls (option_of (derived t)) v = ser (TOption t) v) /\ (forall b, parse (option_of (derived t)) b = de (TOption t) b) /\
     (forall v, calls (vec_of (derived t)) v = ser (TVec t) v) /\ (forall b, parse (vec_of (derived t)) b = de (TVec t) b)).
Proof. exact p_C127_the_same_derive. Qed.
Print Assumptions C127_the_same_derive.

(** C127. Reading such a payload inside a packet: either the cursor stays and an error is returned, or it stands behind exactly the bytes the value was read from; it never leaves the packet. *)
Theorem C127_cursor :
  forall (A : Type) (I : impl A), measured I -> never_panics I ->
  forall (before rest : list byte),
  (exists e, custom_next I (Deserializer (Packet (before ++ rest)) (length before)) = (Deserializer (Packet (before ++ rest)) (length before), Err e)) \/
  (exists used after x, rest = used ++ after /\ parse I rest = Ok (x, after) /\
     custom_next I (Deserializer (Packet (before ++ rest)) (length before)) = (Deserializer (Packet (before ++ rest)) (length (before ++ used)), Ok x)).
Proof. exact p_C127_cursor. Qed.
Print Assumptions C127_cursor.

Example ex_C127_relayed : measured relayed /\ never_panics relayed /\ consistent relayed.
Proof. exact ex_C127_relayed. Qed.

Example ex_C127_bytes :
  serializes relayed (spec_header (repeat x2a 20) x07, (Packet [x01; x02], ([V4 x7f x00 x00 x01 80%N], (Some [x68; x69], tt))))
    ([x00; x02] ++ repeat x2a 20 ++ [x07] ++ u64_bytes 2 ++ [x01; x02] ++ u64_bytes 1 ++ [x7f; x00; x00; x01; x00; x50] ++ [x01] ++ u64_bytes 2 ++ [x68; x69]).
Proof. exact ex_C127_bytes. Qed.

(** a map is not measured: a repeated key is written once *)
Example ex_C127_not_measured : ~ measured (btreemap TU8 TU8 (fun x y => N.compare (N_of_byte x) (N_of_byte y))).
Proof. exact ex_C127_not_measured. Qed.

(** a header with an id of 21 bytes is written but not read back *)
Example ex_C126_long_id : ~ fits header_impl {| h_size := 23; h_version := PyIPV8Header; h_mid_hash := Some (repeat x2a 21); h_message_type := Some 5%N |}.
Proof. exact ex_C126_long_id. Qed.
