(** * Prop_Community: property theorems (statements only; proofs in CommunityProofs.v) *)
From Coq Require Import Strings.String.
From Verif Require Import Base Serde Codec Universe Spec SerdeFacts CodecFacts UniverseFacts Packet Client PacketFacts HeaderProofs Sha1 Sha1Spec Sha1Facts Community CommunitySpec CommunityProofs.
Open Scope nat_scope.

(** C41. A message for community id [m] goes to the community added last among those with id [m]; with no
    such community it is an error and nobody is called. *)
Theorem C41_last_writer_wins :
  forall (m : list byte) (mt : byte) (rest : list byte) (from : address) (cs1 : list community) (c : community)
         (cs2 : list community),
    length m = 20 -> c_mid c = m -> Forall (fun c' => c_mid c' <> m) cs2 ->
    let p := Packet (header_layout m mt ++ rest) in
    forward_message (registered (cs1 ++ c :: cs2)) p from =
    receive c (spec_header m mt) (start_deserialize p) from.
Proof. exact p_C41_last_writer_wins. Qed.
Print Assumptions C41_last_writer_wins.

(** C42. A message for an id nobody registered is an error and calls nobody. *)
Theorem C42_unknown_community :
  forall (m : list byte) (mt : byte) (rest : list byte) (from : address) (cs : list community),
    length m = 20 -> Forall (fun c' => c_mid c' <> m) cs ->
    forward_message (registered cs) (Packet (header_layout m mt ++ rest)) from = ([], Err EUnknownCommunityError).
Proof. exact p_C42_unknown_community. Qed.
Print Assumptions C42_unknown_community.

(** C41. Adding a community never fails and leaves messages for other ids alone. *)
Theorem C41_others_unaffected :
  forall (cs : list community) (c : community) (m : list byte) (mt : byte) (rest : list byte) (from : address),
    length m = 20 -> c_mid c <> m ->
    snd (add_community (registered cs) c) = Ok tt /\
    forward_message (registered (cs ++ [c])) (Packet (header_layout m mt ++ rest)) from =
    forward_message (registered cs) (Packet (header_layout m mt ++ rest)) from.
Proof. exact p_C41_others_unaffected. Qed.
Print Assumptions C41_others_unaffected.

Example ex_C41_three :
  let m := repeat x2a 20 in
  snd (forward_message (registered [sample 1 m; sample 2 (repeat x2b 20); sample 3 m])
         (Packet (header_layout m x01)) (V4 x7f x00 x00 x01 80%N)) = Err (EUser 3).
Proof. exact ex_C41_three. Qed.

(** C42. Whatever bytes arrive: a handler is called only when the header is well formed, it is the handler of
    a registered community whose id is bytes 2..21, and nothing else is called. *)
Theorem C42_routing :
  forall (cs : list community) (p : list byte) (from : address) (tag : nat) (h : header) (d : deserializer) (a : address),
    let effects := fst (forward_message (registered cs) (Packet p) from) in
    In (Handled tag h d a) effects ->
    effects = [Handled tag h d a] /\
    23 <= length p /\ byte_at p 0 = x00 /\ byte_at p 1 = x02 /\
    exists c, In c cs /\ c_tag c = tag /\ c_mid c = firstn 20 (skipn 2 p).
Proof. exact p_C42_routing. Qed.
Print Assumptions C42_routing.

(** C42. A malformed header is an error and calls nobody. *)
Theorem C42_malformed_header :
  forall (cs : list community) (p : list byte) (from : address),
    ~ (23 <= length p /\ byte_at p 0 = x00 /\ byte_at p 1 = x02) ->
    exists e, forward_message (registered cs) (Packet p) from = ([], Err e).
Proof. exact p_C42_malformed_header. Qed.
Print Assumptions C42_malformed_header.

(** C43. The handler gets the decoded header, the whole packet with the cursor at 0, and the sender, and its
    result is returned. *)
Theorem C43_handler_arguments :
  forall (m : list byte) (mt : byte) (rest : list byte) (from : address) (cs1 : list community) (c : community)
         (cs2 : list community),
    length m = 20 -> c_mid c = m -> Forall (fun c' => c_mid c' <> m) cs2 ->
    deprecated (N_of_byte mt) = false ->
    let p := Packet (header_layout m mt ++ rest) in
    let d := {| pntr := p; index := 0 |} in
    forward_message (registered (cs1 ++ c :: cs2)) p from =
    ([Handled (c_tag c) (spec_header m mt) d from], c_on_receive c (spec_header m mt) d from).
Proof. exact p_C43_handler_arguments. Qed.
Print Assumptions C43_handler_arguments.

Example ex_C43_some_type : deprecated (N_of_byte x2a) = false.
Proof. exact ex_C43_some_type. Qed.

(** C44. Exactly the listed types are swallowed, with one warning and [Ok]. *)
Theorem C44_deprecated_types :
  forall (m : list byte) (mt : byte) (rest : list byte) (from : address) (cs1 : list community) (c : community)
         (cs2 : list community),
    length m = 20 -> c_mid c = m -> Forall (fun c' => c_mid c' <> m) cs2 ->
    let t := N_of_byte mt in
    let r := forward_message (registered (cs1 ++ c :: cs2)) (Packet (header_layout m mt ++ rest)) from in
    ((235 <= t <= 244)%N \/ t = 247%N \/ t = 248%N \/ (251 <= t <= 255)%N ->
       exists w, r = ([Warned w from], Ok tt)) /\
    (~ ((235 <= t <= 244)%N \/ t = 247%N \/ t = 248%N \/ (251 <= t <= 255)%N) ->
       exists h d, r = ([Handled (c_tag c) h d from], c_on_receive c h d from)).
Proof. exact p_C44_deprecated_types. Qed.
Print Assumptions C44_deprecated_types.

(** C44. The filter itself, for every header a caller can build (also ones that no packet decodes to: type missing,
    or above 255): no type is an error and calls nobody, a type of the old protocol gives exactly one warning with the
    name of that message, and every other type reaches the handler with the header, packet and sender unchanged. *)
Theorem C44_every_header :
  forall (c : community) (h : header) (d : deserializer) (from : address),
    (h_message_type h = None -> receive c h d from = ([], Err EHeaderUnwrapError)) /\
    (forall (t : N) (name : string), h_message_type h = Some t -> In (t, name) old_protocol_messages ->
       receive c h d from = ([Warned name from], Ok tt)) /\
    (forall (t : N), h_message_type h = Some t -> ~ In t (map fst old_protocol_messages) ->
       receive c h d from = ([Handled (c_tag c) h d from], c_on_receive c h d from)).
Proof. exact p_C44_every_header. Qed.
Print Assumptions C44_every_header.

Example ex_C44_three_headers :
  let c := {| c_tag := 5; c_mid := []; c_on_receive := fun _ _ _ => Err EUnknownCommunityError |} in
  let d := start_deserialize (Packet []) in
  let from := V4 x7f x00 x00 x01 80%N in
  let h t := Header 23 PyIPV8Header (Some []) t in
  receive c (h None) d from = ([], Err EHeaderUnwrapError) /\
  receive c (h (Some 248%N)) d from = ([Warned "on-identity" from], Ok tt) /\
  receive c (h (Some 4096%N)) d from = ([Handled 5 (h (Some 4096%N)) d from], Err EUnknownCommunityError).
Proof. exact ex_C44_three_headers. Qed.

(** C45. The documented range 235..255 is not captured completely: exactly 245, 246, 249 and 250 get through
    to the handler. *)
Theorem C45_reserved_range_refuted :
  forall (m : list byte) (mt : byte) (rest : list byte) (from : address) (cs1 : list community) (c : community)
         (cs2 : list community),
    length m = 20 -> c_mid c = m -> Forall (fun c' => c_mid c' <> m) cs2 ->
    let t := N_of_byte mt in
    (235 <= t <= 255)%N ->
    let r := forward_message (registered (cs1 ++ c :: cs2)) (Packet (header_layout m mt ++ rest)) from in
    ((exists h d, r = ([Handled (c_tag c) h d from], c_on_receive c h d from)) <->
     t = 245%N \/ t = 246%N \/ t = 249%N \/ t = 250%N).
Proof. exact p_C45_reserved_range_refuted. Qed.
Print Assumptions C45_reserved_range_refuted.

(** C45. Concretely: a community registered alone is handed messages of the reserved types f5, f6, f9 and fa. *)
Theorem C45_handler_sees_reserved :
  forall (m rest : list byte) (from : address) (c : community) (mt : byte),
    length m = 20 -> c_mid c = m -> In mt [xf5; xf6; xf9; xfa] ->
    (235 <= N_of_byte mt <= 255)%N /\
    exists h d, fst (forward_message (registered [c]) (Packet (header_layout m mt ++ rest)) from)
                = [Handled (c_tag c) h d from].
Proof. exact p_C45_handler_sees_reserved. Qed.
Print Assumptions C45_handler_sees_reserved.

(** C46. Whoever is called has a 20-byte id: communities with any other id never get a packet. *)
Theorem C46_only_20_byte_ids :
  forall (cs : list community) (p : list byte) (from : address) (tag : nat) (h : header) (d : deserializer) (a : address),
    In (Handled tag h d a) (fst (forward_message (registered cs) (Packet p) from)) ->
    exists c, In c cs /\ c_tag c = tag /\ length (c_mid c) = 20.
Proof. exact p_C46_only_20_byte_ids. Qed.
Print Assumptions C46_only_20_byte_ids.

Example ex_C46_short_id :
  let c := sample 7 [x01; x02; x03] in
  map_get [x01; x02; x03] (registered [c]) = Some c /\
  fst (forward_message (registered [c]) (Packet (header_layout ([x01; x02; x03] ++ repeat x00 17) x01)) (V4 x7f x00 x00 x01 80%N)) = [].
Proof. exact ex_C46_short_id. Qed.

(** C47. The id is the SHA-1 (FIPS 180-4, Sha1Spec.v) of the public key. *)
Theorem C47_id_is_sha1 :
  forall (pe : peer) (digest : list byte),
    (len (peer_key pe) < 2 ^ 61)%N ->
    is_sha1 (peer_key pe) digest <-> digest = get_sha1 pe.
Proof. exact p_C47_id_is_sha1. Qed.
Print Assumptions C47_id_is_sha1.

(** C47. Peer ids have 20 bytes; a community using one as its id is reached by packets carrying it. *)
Theorem C47_peer_ids_routable :
  forall (pe : peer) (c : community) (mt : byte) (rest : list byte) (from : address) (cs1 cs2 : list community),
    c_mid c = get_sha1 pe -> Forall (fun c' => c_mid c' <> get_sha1 pe) cs2 ->
    deprecated (N_of_byte mt) = false ->
    length (get_sha1 pe) = 20 /\
    exists p, packet_new (py_ipv8_header (get_sha1 pe) mt) = Ok p /\
      fst (forward_message (registered (cs1 ++ c :: cs2)) (Packet (packet_raw p ++ rest)) from) =
        [Handled (c_tag c) (spec_header (get_sha1 pe) mt) (start_deserialize (Packet (packet_raw p ++ rest))) from].
Proof. exact p_C47_peer_ids_routable. Qed.
Print Assumptions C47_peer_ids_routable.

Example ex_C47_sha1 :
  sha1 (ascii "abc") = bs [0xa9;0x99;0x3e;0x36;0x47;0x06;0x81;0x6a;0xba;0x3e;0x25;0x71;0x78;0x50;0xc2;0x6c;0x9c;0xd0;0xd8;0x9d]%N.
Proof. exact ex_C47_sha1. Qed.

Example ex_C47_sha1_two_blocks :
  sha1 (ascii "abcdbcdecdefdefgefghfghighijhijkijkljklmklmnlmnomnopnopq") =
  bs [0x84;0x98;0x3e;0x44;0x1c;0x3b;0xd2;0x6e;0xba;0xae;0x4a;0xa1;0xf9;0x51;0x29;0xe5;0xe5;0x46;0x70;0xf1]%N.
Proof. exact ex_C47_sha1_two_blocks. Qed.

(** C59. Forwarding is safe on all bytes: if it panics, the called handler did. *)
Theorem C59_forwarding_never_panics :
  forall (cs : list community) (p : list byte) (from : address) (x : panic),
    snd (forward_message (registered cs) (Packet p) from) = Panic x ->
    exists c h d, In c cs /\ c_on_receive c h d from = Panic x /\
      fst (forward_message (registered cs) (Packet p) from) = [Handled (c_tag c) h d from].
Proof. exact p_C59_forwarding_never_panics. Qed.
Print Assumptions C59_forwarding_never_panics.
