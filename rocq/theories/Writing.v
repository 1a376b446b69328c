(** * Writing: what building a packet costs

    [Packet::new] and [Packet::add] again, with what each step costs (steps and memory as in Cost.v) and with the capacity of the packet's vector.
    WritingProofs.v shows that the packets are those of Packet.v. bincode's [serialize] runs the impl twice: once to learn the size, once to write into a vector with room for exactly that;
    then [extend] copies it to the end of the packet.
    Simplified: a write that fails is not counted (it stops in the first of the two runs, and leaves the packet alone, C19); copying when a vector grows is not counted, it is at most what the
    growth requests. *)
From Verif Require Import Base Serde Codec Universe Packet Client Cost.
Open Scope N_scope.

(** A packet under construction: its bytes and the capacity of the vector they are in. *)
Record buffer := Buffer { content : packet; capacity : N }.
Definition blen (l : list byte) : N := N.of_nat (length l).

(** [Vec::<u8>::reserve] of std: nothing if there is room for [n] more, otherwise twice the capacity, or as much as is needed if that is more, at least 8. *)
Definition reserve (have cap n : N) : cost * N :=
  if have + n <=? cap then (Cost 0 0, cap)
  else let c := N.max 8 (N.max (2 * cap) (have + n)) in (Cost 0 c, c).

(** [self.0.extend(i)] for vectors of bytes (serialization/mod.rs:131-135, 176-177) *)
Definition c_extend (b : buffer) (i : list byte) : cost * buffer :=
  let (c, cap) := reserve (blen (packet_bytes (content b))) (capacity b) (blen i) in
  (plus c (Cost (blen i) 0), Buffer (Packet (packet_bytes (content b) ++ i)) cap).

(** [bincode::config().big_endian().serialize(&x)], the impl costing [pass] each time it runs: the size, a vector of that size, the bytes written to it *)
Definition c_serialize (pass : cost) (s : outcome (list ev)) : costly (list byte) :=
  match s with
  | Ok evs => (plus pass (plus (Cost 0 (N.of_nat (bincode_size evs))) (plus pass (Cost (N.of_nat (bincode_size evs)) 0))), bincode_serialize s)
  | _ => free (bincode_serialize s)
  end.

(** [Packet::new] (serialization/mod.rs:128-137) *)
Definition c_packet_new (h : header) : costly buffer :=
  let pass := Cost (match ser_header h with Ok evs => N.of_nat (length evs) | _ => 0 end) 0 in
  let w := c_serialize pass (ser_header h) in
  match snd w with
  | Ok i => let (c, b) := c_extend (Buffer (Packet []) 0) i in (plus (fst w) c, Ok b)
  | Err _ => (fst w, Err EHeaderError)
  | Panic p => (fst w, Panic p)
  end.

(** [Packet::add::<T>] (serialization/mod.rs:172-179) *)
Definition c_packet_add (t : ty) (b : buffer) (obj : tval t) : cost * (buffer * outcome unit) :=
  let w := c_serialize (size_pass t obj) (ser t obj) in
  match snd w with
  | Ok i => let (c, b) := c_extend b i in (plus (fst w) c, (b, Ok tt))
  | Err e => (fst w, (b, Err e))
  | Panic p => (fst w, (b, Panic p))
  end.
