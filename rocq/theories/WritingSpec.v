(** * WritingSpec: vocabulary of C128 *)
From Verif Require Import Base Serde Codec Universe Spec Packet Client Cost CostSpec Writing.
Open Scope N_scope.

(** Add payloads one after the other, stopping at the first failure: what all of it costs, and the packet. *)
Fixpoint cost_of_adds (b : buffer) (l : list payload) : cost * outcome buffer :=
  match l with
  | [] => (Cost 0 0, Ok b)
  | existT _ t v :: r =>
      let '(c, (b', o)) := c_packet_add t b v in
      match o with
      | Ok _ => let '(c', o') := cost_of_adds b' r in (plus c c', o')
      | Err e => (c, Err e)
      | Panic p => (c, Panic p)
      end
  end.

(** the length of a packet *)
Definition plen (b : buffer) : N := N.of_nat (length (packet_bytes (content b))).

(** values the Rust type can hold, of the given types *)
Definition of_types (types : list ty) (x : payload) : Prop := In (projT1 x) types /\ in_range (projT1 x) (projT2 x).
