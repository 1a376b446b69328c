(** * EndToEndSpec: a listener whose receiver hands packets to a community registry

    "under normal operation, only the IPV8 struct should be a receiver of these and it should distribute it
    through its CommunityRegistry to communities" (networking/mod.rs:21-23). The crate contains no such receiver (C56); a user
    has to write it, as follows. Nothing here models code of /repo. *)
From Coq Require Import Strings.String.
From Verif Require Import Base Serde Codec Universe Spec Packet Client Community CommunitySpec Network NetSpec.
Open Scope nat_scope.

(** [impl Receiver for Forwarder { fn on_receive(&self, packet, address)
    { let _ = self.registry.forward_message(packet, address); } }] *)
Definition forward (cs : list community) (x : list byte * address) : list effect :=
  fst (forward_message (registered cs) (Packet (fst x)) (snd x)).
(** everything that happens in the communities behind receiver [r] during an execution of the listener, in order *)
Definition effects_behind (cs : list community) (r : nat) (tr : list label) : list effect :=
  flat_map (forward cs) (calls r tr).

(** the calls of one community's handler: header, deserializer and sender *)
Fixpoint handler_calls (tag : nat) (l : list effect) : list (header * deserializer * address) :=
  match l with
  | [] => []
  | Handled t h d a :: r => if t =? tag then (h, d, a) :: handler_calls tag r else handler_calls tag r
  | Warned _ _ :: r => handler_calls tag r
  end.

(** a packet for the handler of community [m]: 00 02, the id, and a message type that is not deprecated *)
Definition is_message_for (m : list byte) (pkt : list byte) : bool :=
  (23 <=? length pkt) && bytes_eqb (firstn 22 pkt) ([x00; x02] ++ m) &&
  negb (deprecated (N_of_byte (byte_at pkt 22))).
(** what the handler is to be given for such a packet *)
Definition as_handled (x : list byte * address) : header * deserializer * address :=
  (spec_header (firstn 20 (skipn 2 (fst x))) (byte_at (fst x) 22), {| pntr := Packet (fst x); index := 0 |}, snd x).

(** [c] is the community registered under its id: nobody added later has the same id (C41). *)
Definition is_registered (c : community) (cs : list community) : Prop :=
  exists cs1 cs2, cs = cs1 ++ c :: cs2 /\ Forall (fun c' => c_mid c' <> c_mid c) cs2.
