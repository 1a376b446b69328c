(** * Prop_Recursive: property theorems (statements only; proofs in RecursiveProofs.v) *)
From Coq Require Import Strings.String.
From Verif Require Import Base Serde Codec Universe Spec SerdeFacts CodecFacts UniverseFacts Packet PacketFacts Custom CustomSpec FieldProofs CustomProofs CostProofs DeriveProofs Recursive RecursiveSpec RecursiveProofs.
Open Scope nat_scope.

(** C140. Reading a value takes exactly as much of the stack as the value is nested deep; with less the process is aborted. *)
Theorem C140_exact :
  forall (D : types) (t : rty) (v : rval) (b rest : list byte) (stack : nat),
    encodes D t v b ->
    read D stack t (b ++ rest) = if depth v <=? stack then Ok (v, rest) else Panic stack_overflow.
Proof. exact p_C140_exact. Qed.
Print Assumptions C140_exact.

(** C140. Writing takes the same. *)
Theorem C140_write :
  forall (D : types) (t : rty) (v : rval) (b : list byte) (stack : nat),
    encodes D t v b ->
    if depth v <=? stack then serializes (recursive D stack t) v b else calls (recursive D stack t) v = Panic stack_overflow.
Proof. exact p_C140_write. Qed.
Print Assumptions C140_write.

(** C140. So a value of any depth can be added to a packet and is read back by [next_payload], on machines with enough stack; on any other,
    [next_payload] aborts the process. *)
Theorem C140_payload :
  forall (D : types) (t : rty) (v : rval) (b before after : list byte) (stack : nat),
    encodes D t v b ->
    let d := Deserializer (Packet (before ++ b ++ after)) (length before) in
    (depth v <= stack ->
       custom_add (recursive D stack t) (Packet before) v = (Packet (before ++ b), Ok tt) /\
       custom_next (recursive D stack t) d = (Deserializer (Packet (before ++ b ++ after)) (length (before ++ b)), Ok v)) /\
    (stack < depth v -> custom_next (recursive D stack t) d = (d, Panic stack_overflow)).
Proof. exact p_C140_payload. Qed.
Print Assumptions C140_payload.

(** C140. How much stack there is makes no difference but this: whatever is read, or the error that is reported, is the same with more. *)
Theorem C140_more_stack :
  forall (D : types) (t : rty) (b : list byte) (stack more : nat),
    read D stack t b <> Panic stack_overflow -> read D (stack + more) t b = read D stack t b.
Proof. exact p_C140_more_stack. Qed.
Print Assumptions C140_more_stack.

(** C140. A type that does not contain itself is one of those of Universe.v, which all other claims are about: reading it takes as much stack as its declaration is
    nested deep, whatever the packet and however long it is, and with that much nothing aborts or panics. *)
Theorem C140_closed_types :
  forall (D : types) (t : rty) (b : list byte) (stack : nat),
    closed t = true -> height t <= stack ->
    read D stack t b = (let* (v, r) := de (flatten t) b in Ok (value t v, r)) /\
    (plain t = true -> forall p, read D stack t b <> Panic p).
Proof. exact p_C140_closed_types. Qed.
Print Assumptions C140_closed_types.

(** C140. If types contain each other only inside options, vectors and enums, reading ends, whatever the packet: the stack it takes is at most linear in the length
    of the rest of the packet, and with that much nothing aborts or panics. *)
Theorem C140_linear_stack :
  forall (D : types) (t : rty) (h : nat) (b : list byte) (stack : nat),
    (forall i, guarded (D i) = true /\ plain (D i) = true /\ height (D i) <= h) -> plain t = true ->
    height t + (length b + 1) * (h + 1) <= stack ->
    forall p, read D stack t b <> Panic p.
Proof. exact p_C140_linear_stack. Qed.
Print Assumptions C140_linear_stack.

(** C140. But linear it is: a type that is a chain of options takes three calls for every byte, so the packet decides how much stack is used: on any stack there is
    a packet that aborts the process, a third as long as the stack is deep. *)
Theorem C140_chain :
  forall (before rest : list byte) (n stack : nat),
    stack <= 3 * n ->
    let d := Deserializer (Packet (before ++ repeat x01 n ++ rest)) (length before) in
    custom_next (recursive chain stack (RBox 0)) d = (d, Panic stack_overflow).
Proof. exact p_C140_chain. Qed.
Print Assumptions C140_chain.

(** C140. A type that contains itself without an option, a vector or an enum in between cannot be read at all: every attempt aborts, also on an empty packet. *)
Theorem C140_endless :
  forall (b : list byte) (stack : nat), read endless stack (RBox 0) b = Panic stack_overflow.
Proof. exact p_C140_endless. Qed.
Print Assumptions C140_endless.

(** C140. What [next_payload] does after reading, measuring the value, never takes more stack than reading it took: [next_payload] returns every value that can be read
    and moves behind its bytes. *)
Theorem C140_next_payload :
  forall (D : types) (t : rty) (before b : list byte) (v : rval) (after : list byte) (stack : nat),
    (forall i, plain (D i) = true) -> plain t = true ->
    read D stack t b = Ok (v, after) ->
    exists used, b = used ++ after /\
      custom_next (recursive D stack t) (Deserializer (Packet (before ++ b)) (length before)) =
      (Deserializer (Packet (before ++ b)) (length (before ++ used)), Ok v).
Proof. exact p_C140_next_payload. Qed.
Print Assumptions C140_next_payload.

Example ex_C140_comment :
  exists b, encodes comment (comment 0) ex_comment b /\ depth ex_comment = 8 /\
    read comment 8 (comment 0) (b ++ [xff]) = Ok (ex_comment, [xff]) /\ read comment 7 (comment 0) b = Panic stack_overflow.
Proof. exact ex_C140_comment. Qed.

(** their types meet the condition of the linear bound *)
Example ex_C140_linear :
  (forall i, guarded (chain i) = true /\ plain (chain i) = true /\ height (chain i) <= 3) /\
  (forall i, guarded (comment i) = true /\ plain (comment i) = true /\ height (comment i) <= 3) /\
  guarded (endless 0) = false.
Proof. exact ex_C140_linear. Qed.

(** 2048 bytes, the default size of the receive buffer, are more than a stack of 6144 calls can take. *)
Example ex_C140_default :
  exists packet, length packet = 2048 /\
    custom_next (recursive chain (3 * 2048) (RBox 0)) (start_deserialize (Packet packet)) = (start_deserialize (Packet packet), Panic stack_overflow).
Proof. exact ex_C140_default. Qed.

(** a type that does not contain itself, with a stack of its height *)
Example ex_C140_closed :
  let t := RStruct (RCons (RBase TU16) (RCons (ROption (RVec (RBase TString))) RNil)) in
  closed t = true /\ plain t = true /\ height t = 4 /\ flatten t = TStruct (FCons TU16 (FCons (TOption (TVec TString)) FNil)).
Proof. exact ex_C140_closed. Qed.
