(** * CarefulSpec: a community whose handler does what the documentation says, and a receiver that hands packets to it

    "This should be in most cases the first method to be called when receiving a packet" (serialization/mod.rs:96, of [verify]). Nothing
    here models code of /repo: these are callers of it. *)
From Coq Require Import Strings.String.
From Verif Require Import Base Serde Codec Universe Spec Packet Client Community CommunitySpec Network NetSpec EndToEndSpec.
Open Scope nat_scope.

(** [fn on_receive(&self, header, mut deserializer, address) -> Result<..> { deserializer.pop_header()?;
     if deserializer.verify() { let x: T = deserializer.next_payload()?; self.act(x) } else { Ok(()) } }] *)
Definition verifying_handler (C : ed25519) (t : ty) (act : tval t -> outcome unit) (h : header) (d : deserializer) (from : address)
  : outcome unit :=
  let (d, popped) := pop_header d in
  let* _ := popped in
  let (d, verdict) := verify_embedded C d in
  let* genuine := verdict in
  if genuine : bool then
    let (_, read) := next_payload t d in
    let* x := read in act x
  else Ok tt.

(** The same, with a look at the bytes first: is there room for a header, an authentication payload and a signature, and has the key blob
    at least 74 bytes? *)
Definition worth_verifying (p : list byte) : bool := (163 <=? length p) && (74 <=? N.to_nat (u16_at p 23)).
Definition guarded_handler (C : ed25519) (t : ty) (act : tval t -> outcome unit) (h : header) (d : deserializer) (from : address)
  : outcome unit :=
  if worth_verifying (packet_raw (pntr d)) then verifying_handler C t act h d from else Ok tt.

(** In the execution [tr] of a listener, receiver [r] hands all packets to a registry with the communities [cs] (EndToEndSpec.v): it returns from
    a call only if forwarding that packet does not panic, and panics only if it does. *)
Definition forwards_to (cs : list community) (r : nat) (tr : list label) : Prop :=
  forall before during after pkt src l,
    tr = before ++ LCall r pkt src :: during ++ l :: after ->
    (forall p a, ~ In (LCall r p a) during) ->
    let result := snd (forward_message (registered cs) (Packet pkt) src) in
    (l = LReturn r -> forall q, result <> Panic q) /\
    (l = LPanic r -> exists q, result = Panic q).

(** A packet for community [m] that is no message at all: a header and an empty key blob. *)
Definition empty_blob (m : list byte) (mt : byte) (rest : list byte) : list byte := header_layout m mt ++ [x00; x00] ++ rest.
(** A packet whose signature is half inside its authentication payload: the second half of that is the key 01 00 .. 00, which with 32 zero bytes
    behind it is a signature that is valid under this very key (C103). *)
Definition overlapping (m : list byte) (mt : byte) (ekey : list byte) : list byte :=
  header_layout m mt ++ auth_layout (BinMember (x01 :: repeat x00 31) ekey) ++ repeat x00 32.
