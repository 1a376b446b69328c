(** * Prop_Cost: property theorems (statements only; proofs in CostProofs.v) *)
From Coq Require Import Strings.String.
From Verif Require Import Base Serde Codec Universe Spec SerdeFacts CodecFacts UniverseFacts Packet Client PacketFacts Cost CostSpec CostProofs.
Open Scope N_scope.
Open Scope nat_scope.
Open Scope N_scope.

(** C125: The costs are those of the decoders: with the costs left out, reading a payload, looking at the header and taking it are what they are in Packet.v. *)
Theorem C125_same_results :
  forall (size_of : ty -> N) (t : ty) (d : deserializer),
  snd (c_next_payload size_of t d) = next_payload t d /\ snd (c_peek_header d) = peek_header d /\ snd (c_pop_header d) = pop_header d.
Proof. exact p_C125_same_results. Qed.
Print Assumptions C125_same_results.

(** C125: Reading a payload, whatever its type, takes a number of steps and an amount of memory at most proportional to the bytes that are left in the packet; provided the type contains no vector of elements that may be empty. *)
Theorem C125_reading_is_linear :
  forall (size_of : ty -> N) (t : ty),
  no_empty_elements t = true ->
  exists K, forall d, at_most (K * (remaining d + 1)) (fst (c_next_payload size_of t d)).
Proof. exact p_C125_reading_is_linear. Qed.
Print Assumptions C125_reading_is_linear.

(** C125: The library's own payloads take at most 5 steps and 6 bytes of memory per byte left, apart from constants; 4096 of the latter are serde's cautious first request. *)
Theorem C125_library_payloads :
  forall (size_of : ty -> N) (t : ty) (d : deserializer),
  In t library_types ->
  steps (fst (c_next_payload size_of t d)) <= 5 * remaining d + 91 /\
  memory (fst (c_next_payload size_of t d)) <= 6 * remaining d + 4104.
Proof. exact p_C125_library_payloads. Qed.
Print Assumptions C125_library_payloads.

(** C125: Looking at the header of a packet and taking it need at most 70 steps and 28 bytes of memory, whatever the packet. *)
Theorem C125_headers :
  forall (d : deserializer),
  steps (fst (c_peek_header d)) <= 70 /\ memory (fst (c_peek_header d)) <= 28 /\
  steps (fst (c_pop_header d)) <= 70 /\ memory (fst (c_pop_header d)) <= 28.
Proof. exact p_C125_headers. Qed.
Print Assumptions C125_headers.

(** C125: A handler that reads payloads until a read fails, however many and in whatever order, takes steps and memory at most proportional to the packet; provided no type occupies no bytes. Without that, the number of reads is added to the length of the packet. *)
Theorem C125_loops :
  forall (size_of : ty -> N) (types : list ty),
  Forall (fun t => no_empty_elements t = true) types ->
  exists K, forall ts, Forall (fun t => In t types) ts -> forall d,
    at_most (K * (remaining d + N.of_nat (length ts))) (cost_of_reads size_of d ts) /\
    (Forall (fun t => (0 < min_size t)%nat) types -> at_most (K * (remaining d + 1)) (cost_of_reads size_of d ts)).
Proof. exact p_C125_loops. Qed.
Print Assumptions C125_loops.

(** C125: For a vector of elements that may be empty it is false: eight bytes in a packet, the number of elements, make a read of a vector of [RawEnd]s take that many steps and room for that many elements, up to 2^64 - 1. *)
Theorem C125_empty_elements_refuted :
  forall (size_of : ty -> N) (n : N),
  n < 2 ^ 64 ->
  let c := fst (c_next_payload size_of (TVec TRawEnd) (Deserializer (Packet (u64_bytes n)) 0)) in
  n <= steps c /\ n * size_of TRawEnd <= memory c.
Proof. exact p_C125_empty_elements_refuted. Qed.
Print Assumptions C125_empty_elements_refuted.

Example ex_C125_types :
  no_empty_elements message_type = true /\ no_empty_elements (TVec (TVec TVarLen16)) = true /\ no_empty_elements (TVec TRawEnd) = false /\
  no_empty_elements (TVec (TStruct FNil)) = false /\
  forallb no_empty_elements library_types = true /\ (0 < min_size message_type)%nat.
Proof. exact ex_C125_types. Qed.

(** nine bytes of raw data: 29 steps to read them, 10 for the size; room for 8 bytes, then 16 *)
Example ex_C125_raw : forall size_of, fst (c_next_payload size_of TRawEnd (Deserializer (Packet (bs [1; 2; 3; 4; 5; 6; 7; 8; 9])) 0)) = Cost 39 24.
Proof. exact ex_C125_raw. Qed.

(** a vector that claims to have 300 elements, of which there are two: one step for the length, 13 per address with its push, four before the end is met; room for 300 addresses was requested *)
Example ex_C125_claim :
  fst (c_next_payload (fun _ => 32) (TVec TAddress) (Deserializer (Packet (u64_bytes 300 ++ bs [1; 2; 3; 4; 0; 5; 1; 2; 3; 4; 0; 6])) 0)) = Cost 31 9600.
Proof. exact ex_C125_claim. Qed.

(** two byte strings, then two reads of which the first fails, so the second is not made *)
Example ex_C125_reads : forall size_of,
  cost_of_reads size_of (Deserializer (Packet (bs [0; 2; 7; 7; 0; 1; 9; 0])) 0) [TVarLen16; TVarLen16; TVarLen16; TU8] = Cost 22 16 /\
  remaining (Deserializer (Packet (bs [0; 2; 7; 7; 0; 1; 9; 0])) 0) = 8.
Proof. exact ex_C125_reads. Qed.
