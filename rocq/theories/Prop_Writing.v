(** * Prop_Writing: property theorems (statements only; proofs in WritingProofs.v) *)
From Verif Require Import Base Serde Codec SerdeFacts CodecFacts Universe Spec UniverseFacts Packet Client Cost CostSpec CostProofs Writing WritingSpec WritingProofs.
Open Scope N_scope.

(** C128: These are the packets of [Packet::new] and [Packet::add]. *)
Theorem C128_same_packets :
  forall (h : header) (t : ty) (b : buffer) (v : tval t),
  match snd (c_packet_new h), packet_new h with
  | Ok b, Ok p => content b = p
  | Err e, Err e' => e = e'
  | Panic q, Panic q' => q = q'
  | _, _ => False
  end /\
  (let '(b', o) := snd (c_packet_add t b v) in (content b', o) = packet_add t (content b) v).
Proof. exact p_C128_same_packets. Qed.
Print Assumptions C128_same_packets.

(** C128: Adding a payload that no vector of possibly empty elements occurs in takes a number of steps at most proportional to the bytes it adds, however long the packet already is. *)
Theorem C128_adding_is_linear :
  forall (t : ty), no_empty_elements t = true ->
  exists K, forall b v c b', in_range t v -> c_packet_add t b v = (c, (b', Ok tt)) -> steps c <= K * (plen b' - plen b + 1).
Proof. exact p_C128_adding_is_linear. Qed.
Print Assumptions C128_adding_is_linear.

(** C128: The library's payloads take at most 6 steps per byte added, and 26 more. *)
Theorem C128_library_payloads :
  forall (t : ty) b v c b', In t library_types -> in_range t v -> c_packet_add t b v = (c, (b', Ok tt)) -> steps c <= 6 * (plen b' - plen b) + 26.
Proof. exact p_C128_library_payloads. Qed.
Print Assumptions C128_library_payloads.

(** C128: Making a packet takes four steps per byte of its header. *)
Theorem C128_new :
  forall (h : header) c b, c_packet_new h = (c, Ok b) ->
  steps c = 4 * plen b /\ memory c <= 2 * plen b + 8 /\ plen b <= capacity b /\ capacity b <= 2 * plen b + 8.
Proof. exact p_C128_new. Qed.
Print Assumptions C128_new.

(** C128: Building a packet, from its header and any payloads of any types in any order, requests at most seven bytes of memory per byte of the packet and 24 more; what it occupies in
    the end is at most twice its length and 8 bytes. *)
Theorem C128_memory :
  forall (h : header) c0 b0 l c b,
  c_packet_new h = (c0, Ok b0) -> Forall (fun x => in_range (projT1 x) (projT2 x)) l -> cost_of_adds b0 l = (c, Ok b) ->
  memory (plus c0 c) <= 7 * plen b + 24 /\ plen b <= capacity b /\ capacity b <= 2 * plen b + 8.
Proof. exact p_C128_memory. Qed.
Print Assumptions C128_memory.

(** C128: Building a packet from payloads of types without vectors of possibly empty elements takes a number of steps at most proportional to its length plus the number of payloads; to its
    length alone if every payload occupies at least one byte. *)
Theorem C128_building_is_linear :
  forall (types : list ty), Forall (fun t => no_empty_elements t = true) types ->
  exists K, forall h c0 b0 l c b,
    c_packet_new h = (c0, Ok b0) -> Forall (of_types types) l -> cost_of_adds b0 l = (c, Ok b) ->
    steps (plus c0 c) <= K * (plen b + N.of_nat (length l)) /\
    (Forall (fun t => (0 < min_size t)%nat) types -> steps (plus c0 c) <= K * plen b).
Proof. exact p_C128_building_is_linear. Qed.
Print Assumptions C128_building_is_linear.

(** C128: For a vector of empty elements it is false: adding a vector of [n] of them adds eight bytes and takes [n] steps or more. *)
Theorem C128_empty_elements_refuted :
  forall (n : nat) (b : buffer),
  let v : tval (TVec (TStruct FNil)) := repeat tt n in
  exists c b', c_packet_add (TVec (TStruct FNil)) b v = (c, (b', Ok tt)) /\ plen b' = plen b + 8 /\ N.of_nat n <= steps c.
Proof. exact p_C128_empty_elements_refuted. Qed.
Print Assumptions C128_empty_elements_refuted.

Example ex_C128_new : exists b, c_packet_new ex_header = (Cost 92 46, Ok b) /\ plen b = 23 /\ capacity b = 23.
Proof. exact ex_C128_new. Qed.

Example ex_C128_building : exists c0 b0 c b,
  c_packet_new ex_header = (c0, Ok b0) /\ cost_of_adds b0 ex_payloads = (c, Ok b) /\ Forall (of_types [TVarLen16; TTime]) ex_payloads /\
  plen b = 36 /\ capacity b = 46 /\ c = Cost 40 59.
Proof. exact ex_C128_building. Qed.
