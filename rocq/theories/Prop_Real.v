(** * Prop_Real: property theorems (statements only; proofs in RealProofs.v) *)
From Coq Require Import Strings.String.
From Verif Require Import Base Serde Codec Universe Spec SerdeFacts CodecFacts UniverseFacts Packet Client PacketFacts HeaderProofs CodecProofs CursorProofs CryptoProofs Community CommunitySpec CommunityProofs Network NetSpec NetworkProofs EndToEndSpec EndToEndProofs LivenessSpec Ipv8 Ipv8Spec Ipv8Proofs World WorldSpec WorldProofs OverlayProofs WorldLiveSpec WorldLiveProofs PyBinding PyProofs EdField EdCurve EdSpec Sha512 Sha512Spec Ed25519 Ed25519Proofs Pkcs8 OverlayLiveProofs RealProofs.
Open Scope nat_scope.

(** C30. [verify_with] accepts exactly the packets that are a message followed by a valid signature of it in the sense of RFC 8032, 5.1.7,
    under the given key; it then leaves the message in the deserializer. It rejects all other packets of 64 bytes or more. *)
Theorem C30_rfc8032 :
  forall (pk p : list byte) (i : nat),
    (len p < 2 ^ 64)%N ->
    (forall d, verify_with ring_pkcs8 pk {| pntr := Packet p; index := i |} = (d, Ok true) <->
     exists msg sig, p = msg ++ sig /\ valid_signature pk msg sig /\ d = {| pntr := Packet msg; index := i |}) /\
    (64 <= length p ->
     (forall msg sig, p = msg ++ sig -> ~ valid_signature pk msg sig) ->
     snd (verify_with ring_pkcs8 pk {| pntr := Packet p; index := i |}) = Ok false).
Proof. exact p_C30_rfc8032. Qed.
Print Assumptions C30_rfc8032.

(** C37. [from_seed_checked] accepts exactly the 32-byte seeds with the public key that RFC 8032, 5.1.5, gives them. *)
Theorem C37_rfc8032 :
  forall (seed pk : list byte),
    ((exists k, keypair_from_seed_checked ring_pkcs8 seed pk = Ok k) <-> length seed = 32 /\ is_public_key seed pk) /\
    (forall k, keypair_from_seed_checked ring_pkcs8 seed pk = Ok k -> public_key k = Ok pk /\ keypair_from_seed_unchecked ring_pkcs8 seed = Ok k).
Proof. exact p_C37_rfc8032. Qed.
Print Assumptions C37_rfc8032.

(** C58. The stack of signatures, with real keys: whatever seeds sign a packet one after the other, verification under their public keys (RFC
    8032), in the opposite order, succeeds every time and gives the original packet back. *)
Theorem C58_with_the_real_signatures :
  forall (seeds : list (keypair ring_pkcs8)) (keys : list (list byte)) (p q : packet) (i : nat),
    Forall2 (fun seed key => length seed = 32 /\ is_public_key seed key) seeds keys ->
    sign_all seeds p = Ok q ->
    verify_all ring_pkcs8 (rev keys) {| pntr := q; index := i |}
    = ({| pntr := p; index := i |}, Ok (map (fun _ => true) seeds)) /\
    length (packet_raw q) = length (packet_raw p) + 64 * length seeds.
Proof. exact p_C58_with_the_real_signatures. Qed.
Print Assumptions C58_with_the_real_signatures.

(** C112. [create_signature] of the Python module: it returns something exactly for a 32-byte seed with its public key (RFC 8032, 5.1.5), and then
    the data followed by the signature that RFC 8032, 5.1.6, defines; for everything else it raises KeyError. It never panics. *)
Theorem C112_create_signature :
  forall (seed key data : list byte),
    (len data < 2 ^ 64)%N ->
    (forall out, borrowed_create_signature ring_pkcs8 seed key data = PyOk out <->
       length seed = 32 /\ is_public_key seed key /\ exists sig, is_signature seed data sig /\ out = data ++ sig) /\
    ((exists out, borrowed_create_signature ring_pkcs8 seed key data = PyOk out) \/
     (exists m, borrowed_create_signature ring_pkcs8 seed key data = PyKeyError m)).
Proof. exact p_C112_create_signature. Qed.
Print Assumptions C112_create_signature.

(** C112. [verify_signature] of the Python module says true exactly for a header, an authentication payload (whose announced length may be more than
    its 74 bytes, as long as that many bytes follow), any bytes, and a signature over all of it that is valid under the embedded key by RFC 8032,
    5.1.7; it returns these bytes. *)
Theorem C112_verify_signature :
  forall (auth data body : list byte),
    (len data < 2 ^ 64)%N ->
    (borrowed_verify_signature ring_pkcs8 auth data = PyOk (true, body) <->
     exists mid mt n ekey key sig,
       length mid = 20 /\ length ekey = 32 /\ length key = 32 /\ (74 <= n < 65536)%N /\
       let msg := [x00; x02] ++ mid ++ [mt] ++ u16_bytes n ++ ascii "LibNaCLPK:" ++ ekey ++ key ++ body in
       data = msg ++ sig /\ 25 + N.to_nat n <= length data /\ valid_signature key msg sig).
Proof. exact p_C112_verify_signature. Qed.
Print Assumptions C112_verify_signature.

(** C112. Python to Rust: what [create_signature] returns, [verify_with] accepts under the same key, and restores the data. *)
Theorem C112_python_to_rust :
  forall (seed key data out : list byte) (i : nat),
    borrowed_create_signature ring_pkcs8 seed key data = PyOk out ->
    verify_with ring_pkcs8 key {| pntr := Packet out; index := i |} = ({| pntr := Packet data; index := i |}, Ok true).
Proof. exact p_C112_python_to_rust. Qed.
Print Assumptions C112_python_to_rust.

(** C112. Rust to Python: a packet made by the API - header, authentication payload with the signer's key, any bytes that payloads put behind it -
    and signed with the key pair of a seed is accepted by [verify_signature], which returns the bytes behind the authentication payload. *)
Theorem C112_rust_to_python :
  forall (seed pk ekey mid : list byte) (mt : byte) (l : list payload) (key : keypair ring_pkcs8) (p0 p1 unsigned signed : packet) (auth : list byte),
    keypair_from_seed_unchecked ring_pkcs8 seed = Ok key -> is_public_key seed pk -> length ekey = 32 -> length mid = 20 ->
    packet_new (py_ipv8_header mid mt) = Ok p0 ->
    packet_add TBinMember p0 (BinMember pk ekey) = (p1, Ok tt) ->
    add_all p1 l = Ok unsigned ->
    packet_sign unsigned key = Ok signed ->
    borrowed_verify_signature ring_pkcs8 auth (packet_raw signed) = PyOk (true, skipn (length (packet_raw p1)) (packet_raw unsigned)).
Proof. exact p_C112_rust_to_python. Qed.
Print Assumptions C112_rust_to_python.

(** C71. A signed message from API to API with Ed25519 itself: nothing is assumed of the cryptography. *)
Theorem C71_with_the_real_signatures :
  forall (seed pk ekey : list byte) (mt : byte) (l : list payload) (key : keypair ring_pkcs8) (p0 unsigned signed : packet)
         (os : list byte -> address -> outcome nat) (dst src : address)
         (cfg : net_config) (q0 : list datagram) (tr : list label) (s : net_state) (r : nat)
         (cs : list community) (c : community),
    (* the sender *)
    keypair_from_seed_unchecked ring_pkcs8 seed = Ok key -> is_public_key seed pk -> length ekey = 32 ->
    Forall (fun x => in_range (projT1 x) (projT2 x)) l ->
    readable_sequence self_delimiting raw_at_end_only (map ptype l) = true ->
    packet_new (py_ipv8_header (c_mid c) mt) = Ok p0 ->
    add_all p0 (existT tval TBinMember (BinMember pk ekey) :: l) = Ok unsigned ->
    packet_sign unsigned key = Ok signed ->
    (* the network: what [send] handed to the operating system was received, among any other datagrams *)
    (forall x, In x (fst (network_send os dst signed)) -> In (fst x, src) (received q0 tr)) ->
    length (packet_raw signed) <= nc_buffersize cfg ->
    (* the receiving process *)
    run cfg (net_init cfg q0) tr s -> between_datagrams s -> r < nc_receivers cfg ->
    is_registered c cs -> length (c_mid c) = 20 -> deprecated (N_of_byte mt) = false ->
    (forall c', In c' cs -> c_tag c' = c_tag c -> c_mid c' = c_mid c) ->
    exists d d1 d2 d3,
      In (spec_header (c_mid c) mt, d, src) (handler_calls (c_tag c) (effects_behind cs r tr)) /\
      pop_header d = (d1, Ok (spec_header (c_mid c) mt)) /\
      verify_embedded ring_pkcs8 d1 = (d2, Ok true) /\
      read_all d2 (map ptype l) = (d3, Ok (map transmitted_payload l)).
Proof. exact p_C71_with_the_real_signatures. Qed.
Print Assumptions C71_with_the_real_signatures.

(** C92. A signed message across the network with Ed25519 itself: nothing is assumed of the cryptography. *)
Theorem C92_with_the_real_signatures :
  forall (seed pk ekey : list byte) (mt : byte) (l : list payload) (key : keypair ring_pkcs8) (p0 unsigned signed : packet)
         (T : topology) (tr : list event) (w : world) (i k : nat) (m : message) (cfg : config) (r : nat)
         (cs : list community) (c : community),
    (* the sender *)
    keypair_from_seed_unchecked ring_pkcs8 seed = Ok key -> is_public_key seed pk -> length ekey = 32 ->
    Forall (fun x => in_range (projT1 x) (projT2 x)) l ->
    readable_sequence self_delimiting raw_at_end_only (map ptype l) = true ->
    packet_new (py_ipv8_header (c_mid c) mt) = Ok p0 ->
    add_all p0 (existT tval TBinMember (BinMember pk ekey) :: l) = Ok unsigned ->
    packet_sign unsigned key = Ok signed ->
    (* the network *)
    wrun T world_init tr w -> In (WSend i signed m) tr -> In (WDeliver k m) tr ->
    In (WStart k cfg) tr -> ~ In (WClose k) tr -> r < added k tr ->
    length (packet_raw signed) <= cf_buffersize cfg ->
    length (calls r (trace_at k tr)) = length (delivered k tr) ->
    (* the receiving process *)
    is_registered c cs -> length (c_mid c) = 20 -> deprecated (N_of_byte mt) = false ->
    (forall c', In c' cs -> c_tag c' = c_tag c -> c_mid c' = c_mid c) ->
    exists d d1 d2 d3,
      In (spec_header (c_mid c) mt, d, m_from m) (handler_calls (c_tag c) (effects_behind cs r (trace_at k tr))) /\
      pop_header d = (d1, Ok (spec_header (c_mid c) mt)) /\
      verify_embedded ring_pkcs8 d1 = (d2, Ok true) /\
      read_all d2 (map ptype l) = (d3, Ok (map transmitted_payload l)).
Proof. exact p_C92_with_the_real_signatures. Qed.
Print Assumptions C92_with_the_real_signatures.

(** C112 is not void: every seed has a key, with which data of any length are signed and verified *)
Example ex_C112_every_seed :
  forall (seed data : list byte), length seed = 32 ->
  exists key out, is_public_key seed key /\ borrowed_create_signature ring_pkcs8 seed key data = PyOk out /\
                  length out = length data + 64.
Proof. exact ex_C112_every_seed. Qed.

Example ex_C58_real_seeds :
  forall a b : list byte, length a = 32 -> length b = 32 ->
  exists q keys, Forall2 (fun seed key => length seed = 32 /\ is_public_key seed key) [a; b] keys /\
    sign_all (C := ring_pkcs8) [a; b] (Packet [x09]) = Ok q.
Proof. exact ex_C58_real_seeds. Qed.

(** the hypotheses of C71 with the real signatures are met, for every seed *)
Example ex_C71_real_hypotheses :
  forall seed, length seed = 32 ->
  exists (key : keypair ring_pkcs8) pk p0 unsigned signed tr s,
    keypair_from_seed_unchecked ring_pkcs8 seed = Ok key /\ is_public_key seed pk /\
    packet_new (py_ipv8_header e2e_mid x01) = Ok p0 /\
    add_all p0 (existT tval TBinMember (BinMember pk (repeat x06 32)) :: example_payloads) = Ok unsigned /\
    packet_sign unsigned key = Ok signed /\ length (packet_raw signed) <= nc_buffersize e2e_cfg /\
    run e2e_cfg (net_init e2e_cfg []) tr s /\ between_datagrams s /\ received [] tr = [(packet_raw signed, e2e_src)] /\
    is_registered (e2e_community 1 e2e_mid) e2e_registry.
Proof. exact ex_C71_real_hypotheses. Qed.

(** the hypotheses of C92 with the real signatures are met, for every seed *)
Example ex_C92_real_hypotheses :
  forall seed, length seed = 32 ->
  exists (key : keypair ring_pkcs8) pk p0 unsigned signed m tr w,
    keypair_from_seed_unchecked ring_pkcs8 seed = Ok key /\ is_public_key seed pk /\
    packet_new (py_ipv8_header e2e_mid x01) = Ok p0 /\
    add_all p0 (existT tval TBinMember (BinMember pk (repeat x06 32)) :: example_payloads) = Ok unsigned /\
    packet_sign unsigned key = Ok signed /\
    wrun two_hosts world_init tr w /\ In (WSend 0 signed m) tr /\ In (WDeliver 1 m) tr /\
    In (WStart 1 overlay_config) tr /\ ~ In (WClose 1) tr /\ 0 < added 1 tr /\
    length (packet_raw signed) <= cf_buffersize overlay_config /\
    length (calls 0 (trace_at 1 tr)) = length (delivered 1 tr) /\
    is_registered (e2e_community 1 e2e_mid) e2e_registry.
Proof. exact ex_C92_real_hypotheses. Qed.
