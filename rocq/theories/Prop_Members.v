(** * Prop_Members: property theorems (statements only; proofs in MembersProofs.v) *)
From Coq Require Import Strings.String Permutation.
From Verif Require Import Base Serde Codec Universe Spec SerdeFacts CodecFacts UniverseFacts Packet Client PacketFacts HeaderProofs Community CommunitySpec CommunityProofs Members MembersSpec MembersProofs.
Open Scope nat_scope.

(** C129: Whatever communities do and however the state changes: a packet goes to the community that was registered last under the id in it, that is, whose [get_mid] returned this id when it was
    added, whatever it would return now; if there is none, nobody is called and nothing changes. *)
Theorem C129_routing :
  forall (S : Type) (l : list (op S)) (s0 : S) h s r (k : list byte) (mt : byte) (rest : list byte) (from : address),
  ops l [] s0 = (h, s, r) -> length k = 20 ->
  let p := Packet (header_layout k mt ++ rest) in
  (forall h1 m h2, h = h1 ++ AskedMid m (Some k) :: h2 -> Forall (fun e => ~ registers k e) h2 ->
     forward_to_member r p from s = member_receive m (spec_header k mt) (start_deserialize p) from s) /\
  (Forall (fun e => ~ registers k e) h -> forward_to_member r p from s = ([], s, Err EUnknownCommunityError)).
Proof. exact p_C129_routing. Qed.
Print Assumptions C129_routing.

(** C129: The default [receive], for every header: a type of the old protocol is warned of and the state stays as it is; without a type there is an error; otherwise [on_receive] is called with
    the header, packet and sender unchanged, in the state as it is, and what it returns is returned. An impl that overrides [receive] gets everything. *)
Theorem C129_receive :
  forall (S : Type) (m : member S) (h : header) (d : deserializer) (from : address) (s : S),
  (m_receive m = None ->
    (h_message_type h = None -> member_receive m h d from s = ([], s, Err EHeaderUnwrapError)) /\
    (forall t name, h_message_type h = Some t -> In (t, name) old_protocol_messages -> member_receive m h d from s = ([WarnedOf name from], s, Ok tt)) /\
    (forall t, h_message_type h = Some t -> ~ In t (map fst old_protocol_messages) ->
       member_receive m h d from s = ([Called m h d from], fst (m_on_receive m h d from s), snd (m_on_receive m h d from s)))) /\
  (forall f, m_receive m = Some f -> member_receive m h d from s = ([Overridden m h d from], fst (f h d from s), snd (f h d from s))).
Proof. exact p_C129_receive. Qed.
Print Assumptions C129_receive.

(** C129: Forwarding a packet, whatever its bytes: user code runs at most once, namely that of one registered community, in the state as it is, and the caller gets what it returned; if none
    runs, nothing changes; no panic comes from the registry itself. *)
Theorem C129_one_call :
  forall (S : Type) (r : @roster S) (p : packet) (from : address) (s : S),
  let '(h, s', o) := forward_to_member r p from s in
  (h = [] /\ s' = s /\ exists e, o = Err e) \/
  (exists w, h = [WarnedOf w from] /\ s' = s /\ o = Ok tt) \/
  (exists m hd, In m (map snd r) /\
     ((m_receive m = None /\ h = [Called m hd (start_deserialize p) from] /\ (s', o) = m_on_receive m hd (start_deserialize p) from s) \/
      (exists f, m_receive m = Some f /\ h = [Overridden m hd (start_deserialize p) from] /\ (s', o) = f hd (start_deserialize p) from s))).
Proof. exact p_C129_one_call. Qed.
Print Assumptions C129_one_call.

(** C129: [add_community] succeeds unless [get_mid] panics; then the panic is passed on, the registry stays as it was and the community is dropped. *)
Theorem C129_add :
  forall (S : Type) (r : @roster S) (item : member S) (s : S),
  (snd (m_get_mid item s) <> None -> snd (add_member r item s) = Ok tt) /\
  (snd (m_get_mid item s) = None ->
     exists p, add_member r item s = ([AskedMid item None; Dropped item], m_drop item (fst (m_get_mid item s)), r, Panic p)).
Proof. exact p_C129_add. Qed.
Print Assumptions C129_add.

(** C129: [get_mid] is called once for every community given to the registry, in that order, and never again. *)
Theorem C129_asked_once :
  forall (S : Type) (l : list (op S)) (s0 : S) h s, lifetime l s0 h s -> asked h = given l.
Proof. exact p_C129_asked_once. Qed.
Print Assumptions C129_asked_once.

(** C129: Every community given to the registry is dropped exactly once by the end of the registry (when it is replaced, when its own [get_mid] panics, or then), and no other. Before the end,
    those not dropped are exactly the registered ones. *)
Theorem C129_dropped_once :
  forall (S : Type) (l : list (op S)) (s0 : S),
  (forall h s, lifetime l s0 h s -> Permutation (dropped h) (given l)) /\
  (forall h s r, ops l [] s0 = (h, s, r) -> Permutation (given l) (dropped h ++ map snd r)).
Proof. exact p_C129_dropped_once. Qed.
Print Assumptions C129_dropped_once.

(** C129: No code of a community runs after it has been dropped. *)
Theorem C129_silent_after_drop :
  forall (S : Type) (l : list (op S)) (s0 : S) h s,
  NoDup (map m_name (given l)) -> lifetime l s0 h s ->
  forall before m after, h = before ++ Dropped m :: after -> Forall (fun e => who e <> Some (m_name m)) after.
Proof. exact p_C129_silent_after_drop. Qed.
Print Assumptions C129_silent_after_drop.

(** C129: Communities without state that do not override [receive] behave as in C41 to C47. *)
Theorem C129_stateless :
  forall (cs : list community) (p : packet) (from : address) h s r,
  ops (map (fun c => Add (stateless c)) cs) [] tt = (h, s, r) ->
  let '(h', s', o) := forward_to_member r p from s in
  (flat_map as_effect h', o) = forward_message (registered cs) p from.
Proof. exact p_C129_stateless. Qed.
Print Assumptions C129_stateless.

(** The message for the id 02 02 .. goes to the second, although the first would now say that this is its id; one of the old protocol is warned of for the second, but gets to the third, which
    overrides [receive]; the first is dropped when it is replaced, the one with the panic when it panics. *)
Example ex_C129_program :
  exists h s, lifetime ex_program 0 h s /\ NoDup (map m_name (given ex_program)) /\
    map who h = [Some 1; Some 2; Some 2; Some 1; Some 4; Some 4; None; Some 3; Some 1; Some 3; Some 3; Some 2] /\
    map m_name (dropped h) = [4; 1; 3; 2] /\ s = 111.
Proof. exact ex_C129_program. Qed.
