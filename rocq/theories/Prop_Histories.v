(** * Prop_Histories: property theorems (statements only; proofs in HistoriesProofs.v) *)
From Coq Require Import Strings.String.
From Verif Require Import Base Serde Codec Universe Spec SerdeFacts CodecFacts UniverseFacts Packet Client PacketFacts CodecProofs CursorProofs CryptoProofs HistoriesSpec HistoriesProofs.
Open Scope nat_scope.

(** C143. Exactly when a call panics, in terms of the public fields: one that looks at the packet, when the cursor is behind its end; [verify_with], when the packet has no room for a
    signature; [verify], also when there is a broken blob at the cursor. *)
Theorem C143_panics_iff :
  forall (C : ed25519) (d : deserializer) (o : op),
    ordinary o -> (panicked (snd (do_op C d o)) <-> (looks o /\ size d < index d) \/ hopeless d o).
Proof. exact p_C143_panics_iff. Qed.
Print Assumptions C143_panics_iff.

(** C143. It is for good: once the cursor is behind the end no history of calls - of payloads of any type, with any results - brings it back, and every call that looks at the
    packet panics. *)
Theorem C143_beyond_is_permanent :
  forall (C : ed25519) (l : list op) (d : deserializer) (o : op),
    size d < index d ->
    size (fst (do_ops C d l)) < index (fst (do_ops C d l)) /\
    (looks o -> do_op C (fst (do_ops C d l)) o = (fst (do_ops C d l), Panic PSliceIndex)).
Proof. exact p_C143_beyond_is_permanent. Qed.
Print Assumptions C143_beyond_is_permanent.

(** C143. How it comes to that: only by verifying. In a history that starts inside the packet, the cursor is behind the end afterwards exactly when some verification took
    bytes for the signature that had been read. *)
Theorem C143_only_verifying_gets_there :
  forall (C : ed25519) (l : list op) (d : deserializer),
    index d <= size d -> Forall ordinary l ->
    (size (fst (do_ops C d l)) < index (fst (do_ops C d l)) <->
     exists l1 o l2, l = l1 ++ o :: l2 /\ cuts_into_read (fst (do_ops C d l1)) o /\ index (fst (do_ops C d l1)) <= size (fst (do_ops C d l1))).
Proof. exact p_C143_only_verifying_gets_there. Qed.
Print Assumptions C143_only_verifying_gets_there.

(** C143. Whole histories: starting inside the packet, some call of a history panics exactly when it contains a hopeless verification, or one that cuts into what was read
    and later a call that looks at the packet. (A program that makes sure that neither happens, before each verification, never panics.) *)
Theorem C143_histories :
  forall (C : ed25519) (l : list op) (d : deserializer),
    index d <= size d -> Forall ordinary l ->
    ((exists r, In r (snd (do_ops C d l)) /\ panicked r) <->
     exists l1 o l2, l = l1 ++ o :: l2 /\
       (hopeless (fst (do_ops C d l1)) o \/
        (cuts_into_read (fst (do_ops C d l1)) o /\ index (fst (do_ops C d l1)) <= size (fst (do_ops C d l1)) /\ exists o', In o' l2 /\ looks o'))).
Proof. exact p_C143_histories. Qed.
Print Assumptions C143_histories.

(** C143. What a program can do about it: the fields are public. After any history, setting [index] to any position in what is left of the packet makes reading safe again; what is
    left is the packet without some signatures at its end. *)
Theorem C143_moving_the_cursor_repairs :
  forall (C : ed25519) (l l' : list op) (p : list byte) (i n : nat),
    let left := pntr (fst (do_ops C {| pntr := Packet p; index := i |} l)) in
    (exists k, packet_raw left = firstn (length p - 64 * k) p /\ 64 * k <= length p) /\
    (n <= length (packet_raw left) -> Forall (fun o => is_read o = true) l' -> Forall ordinary l' ->
     let d := {| pntr := left; index := n |} in
     Forall (fun r => ~ panicked r) (snd (do_ops C d l')) /\ pntr (fst (do_ops C d l')) = left /\
     n <= index (fst (do_ops C d l')) <= length (packet_raw left)).
Proof. exact p_C143_moving_the_cursor_repairs. Qed.
Print Assumptions C143_moving_the_cursor_repairs.

Example ex_C143_history :
  let d := start_deserialize (Packet ex_packet) in
  index d <= size d /\ Forall ordinary [OPop; OVerifyWith []; OPeek; OVerifyWith []] /\
  snd (do_ops toy d [OPop; OVerifyWith []; OPeek; OVerifyWith []]) = [Ok tt; Ok tt; Err EEof; Panic PSubOverflow] /\
  hopeless (fst (do_ops toy d [OPop; OVerifyWith []; OPeek])) (OVerifyWith []).
Proof. exact ex_C143_history. Qed.

Example ex_C143_overlap :
  let d := start_deserialize (Packet ex_packet) in
  cuts_into_read (fst (do_ops toy d [OPop; ONext TU8])) (OVerifyWith []) /\
  snd (do_ops toy d [OPop; ONext TU8; OVerifyWith []; ONext TU8; OPop; OVerify]) = [Ok tt; Ok tt; Ok tt; Panic PSliceIndex; Panic PSliceIndex; Panic PSliceIndex] /\
  snd (do_ops toy {| pntr := pntr (fst (do_ops toy d [OPop; ONext TU8; OVerifyWith []])); index := 22 |} [ONext TU8; ONext TU8]) = [Ok tt; Err EEof].
Proof. exact ex_C143_overlap. Qed.
