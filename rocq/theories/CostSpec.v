(** * CostSpec: vocabulary of C125 *)
From Verif Require Import Base Serde Codec Universe Spec Packet Client Cost.
Open Scope N_scope.

(** No vector in the type has elements that may be empty, i.e. occupy no byte in a packet. *)
Fixpoint no_empty_elements (t : ty) : bool :=
  match t with
  | TStruct fs | TEnum fs => none_has_empty_elements fs
  | TOption t => no_empty_elements t
  | TVec t => (0 <? min_size t)%nat && no_empty_elements t
  | _ => true
  end
with none_has_empty_elements (fs : tys) : bool :=
  match fs with
  | FNil => true
  | FCons t r => no_empty_elements t && none_has_empty_elements r
  end.

(** The payload types that come with the library. *)
Definition library_types : list ty :=
  [TBits; TAddress; TVarLen16; TVarLen32; TVarLen64; TRawEnd; TNested; TTime; TPuncture; TPunctureRequest; TIntroductionRequest; TIntroductionResponse; TBinMember].

(** What is left to read. *)
Definition remaining (d : deserializer) : N := N.of_nat (length (packet_bytes (pntr d)) - index d).

(** Steps and memory are both at most this. *)
Definition at_most (n : N) (c : cost) : Prop := steps c <= n /\ memory c <= n.

(** A handler that reads payloads of the given types, one after the other, until one fails: what all reads together cost. *)
Fixpoint cost_of_reads (size_of : ty -> N) (d : deserializer) (ts : list ty) : cost :=
  match ts with
  | [] => Cost 0 0
  | t :: r =>
      let '(c, (d', o)) := c_next_payload size_of t d in
      match o with
      | Ok _ => plus c (cost_of_reads size_of d' r)
      | _ => c
      end
  end.
