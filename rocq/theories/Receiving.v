(** * Receiving: what the listener and the registry cost

    The buffers of [NetworkReceiver::listen] (networking/mod.rs:103-143) in every state of Network.v, what each step copies and requests, and [CommunityRegistry::forward_message]
    (community/mod.rs:147-164) with its cost. Steps and memory as in Cost.v.
    Simplified: only vectors of bytes are counted, not what is of constant size or set up once (the poll, its events, jobs and stacks of the pool); what receivers and communities do is theirs. *)
From Verif Require Import Base Serde Codec Universe Packet Community Network Cost.
Open Scope N_scope.

Definition size (l : list byte) : N := N.of_nat (length l).

(** Bytes in vectors that the listener owns: the receive buffer (mod.rs:116), [packet] (130), and the copy each running receiver was given (137).
    A receiver that has returned may have kept its copy; that is then the receiver's. *)
Definition held (s : net_state) : N :=
  size (ns_buffer s) +
  match ns_pc s with
  | Dispatching _ pkt _ _ running _ => size pkt * (1 + N.of_nat (length running))
  | _ => 0
  end.

(** The most that is in use during a step. [Packet(buffer[..recv_size].to_vec()).clone()] (130): the vector and its clone exist together, the first is dropped at the end of the statement. *)
Definition peak (s : net_state) (l : label) (s' : net_state) : N :=
  match l, ns_pc s' with
  | LRecv, Dispatching _ pkt _ _ _ _ => size (ns_buffer s') + 2 * size pkt
  | _, _ => N.max (held s) (held s')
  end.

(** What a step costs: the datagram is copied into the buffer, to a vector, and to its clone (128-130); each call of a receiver gets a clone (137). *)
Definition step_cost (l : label) (s' : net_state) : cost :=
  match l, ns_pc s' with
  | LRecv, Dispatching _ pkt _ _ _ _ => Cost (3 * size pkt) (2 * size pkt)
  | LCall _ pkt _, _ => Cost (size pkt) (size pkt)
  | _, _ => Cost 0 0
  end.

(** Executions as in Network.v, with what they cost, beginning with the receive buffer (116), which is allocated zeroed. *)
Inductive run_cost (c : net_config) (q0 : list datagram) : list label -> cost -> net_state -> Prop :=
| run_cost_init : run_cost c q0 [] (Cost 0 (N.of_nat (nc_buffersize c))) (net_init c q0)
| run_cost_step tr k s l s' : run_cost c q0 tr k s -> step c s l s' -> run_cost c q0 (tr ++ [l]) (plus k (step_cost l s')) s'.

(** ** The registry *)

(** Comparing two vectors of bytes: the lengths, then the bytes if the lengths are equal. *)
Definition compare_cost (a b : list byte) : N := 1 + if size a =? size b then size a else 0.

(** [self.communities.get(mid)] (community/mod.rs:158): hashes the key, then compares it with entries, here in the worst case: with all up to the one that is found.
    (std's hash is keyed with random numbers, so that usually it is one comparison, or none.) *)
Fixpoint compared (mid : list byte) (m : registry) : N :=
  match m with
  | [] => 0
  | (k, _) :: r => compare_cost mid k + if bytes_eqb mid k then 0 else compared mid r
  end.
Definition c_map_get (mid : list byte) (m : registry) : cost * option community := (Cost (size mid + compared mid m) 0, map_get mid m).

(** [CommunityRegistry::forward_message] (community/mod.rs:147-164), up to where the community's own code begins. [receive] (63-109) does not read or copy anything, nor does passing on the
    deserializer, which owns the packet's vector. *)
Definition c_forward_message (r : registry) (p : packet) (a : address) : cost * (list effect * outcome unit) :=
  let d := start_deserialize p in
  let w := c_peek_header d in
  match snd w with
  | Err e => (fst w, ([], Err e))
  | Panic q => (fst w, ([], Panic q))
  | Ok h =>
      match h_mid_hash h with
      | None => (fst w, ([], Err EMidError))
      | Some mid =>
          let (k, o) := c_map_get mid r in
          (plus (fst w) k,
           match o with
           | None => ([], Err EUnknownCommunityError)
           | Some c => receive c h d a
           end)
      end
  end.
