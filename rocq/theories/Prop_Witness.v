(** * Prop_Witness: property theorems (statements only; proofs in WitnessProofs.v) *)
From Coq Require Import Strings.String.
From Verif Require Import Base Serde Codec Universe Spec SerdeFacts CodecFacts UniverseFacts Packet Client PacketFacts HeaderProofs CodecProofs CursorProofs CryptoProofs Community CommunitySpec CommunityProofs Network NetSpec NetworkProofs EndToEndSpec EndToEndProofs EdSpec Ed25519 Ed25519Proofs Pkcs8 PyBinding PyProofs RealProofs Ipv8 Ipv8Spec Ipv8Proofs WitnessProofs.
Open Scope nat_scope.

(** C04: both sides occur. *)
Example ex_C04_both :
  (exists p, packet_new (py_ipv8_header (repeat x2a 20) x01) = Ok p /\ peek_header (start_deserialize p) = Ok (py_ipv8_header (repeat x2a 20) x01)) /\
  (exists h p, packet_new h = Ok p /\ length (packet_raw p) = 23 /\ peek_header (start_deserialize p) <> Ok h).
Proof. exact ex_C04_both. Qed.

(** C11 (with an introduction response, where two values give the same bytes), C12, C20: values in range that are encoded behind other bytes *)
Example ex_C11_same_bytes :
  raw_at_end_only TIntroductionResponse = true /\ in_range TIntroductionResponse (w_response true) /\ in_range TIntroductionResponse (w_response false) /\
  w_response true <> w_response false /\
  exists q, packet_add TIntroductionResponse (Packet [xaa]) (w_response true) = (q, Ok tt) /\ packet_add TIntroductionResponse (Packet [xaa]) (w_response false) = (q, Ok tt).
Proof. exact ex_C11_same_bytes. Qed.

Example ex_C12_tunnel :
  in_range TIntroductionResponse (w_response true) /\
  exists q, packet_add TIntroductionResponse (Packet [xaa]) (w_response true) = (q, Ok tt) /\ length (packet_raw q) = 37.
Proof. exact ex_C12_tunnel. Qed.

Example ex_C20_request :
  in_range TIntroductionRequest w_request /\
  exists q, packet_add TIntroductionRequest (Packet [xaa]) w_request = (q, Ok tt) /\ fits_memory (packet_raw q ++ [x01; x02]) /\ length (packet_raw q) = 23.
Proof. exact ex_C20_request. Qed.

(** C19: both outcomes *)
Example ex_C19_both :
  in_range TAddress (w_addr x01) /\ in_range TAddress (V6 (repeat x00 16) 80%N 0%N 0%N) /\
  (exists q, packet_add TAddress (Packet [xaa]) (w_addr x01) = (q, Ok tt)) /\
  (exists e, packet_add TAddress (Packet [xaa]) (V6 (repeat x00 16) 80%N 0%N 0%N) = (Packet [xaa], Err e)).
Proof. exact ex_C19_both. Qed.

Example ex_C35_room :
  length (w_signed [x09]) = 76 + 1 + 64 /\
  exists d, verify_embedded toy (start_deserialize (Packet (w_signed [x09]))) = (d, Ok true) /\ d <> start_deserialize (Packet (w_signed [x09])).
Proof. exact ex_C35_room. Qed.

Example ex_C35_no_room :
  exists p d, length p < 76 + 64 /\ verify_embedded toy (start_deserialize (Packet p)) = (d, Ok false) /\ d <> start_deserialize (Packet p).
Proof. exact ex_C35_no_room. Qed.

Example ex_C34_each :
  (exists x, snd (verify_embedded toy (start_deserialize (Packet (bs [0; 2; 7; 7]%N)))) = Panic x) /\
  snd (verify_embedded toy (start_deserialize (Packet (bs [0; 9; 7; 7]%N)))) = Ok false /\
  snd (verify_embedded toy (start_deserialize (Packet (w_signed [x09])))) = Ok true.
Proof. exact ex_C34_each. Qed.

Example ex_C30_accepted :
  snd (verify_with toy (repeat x05 32) (start_deserialize (Packet (w_signed [x09])))) = Ok true /\
  snd (verify_with toy (repeat x06 32) (start_deserialize (Packet (w_signed [x09])))) = Ok false.
Proof. exact ex_C30_accepted. Qed.

Example ex_C45_reserved :
  let r t := forward_message (registered (e2e_registry ++ [w_panicking])) (Packet (header_layout e2e_mid t ++ [x09])) e2e_src in
  let handled t := exists h d, fst (r t) = [Handled 1 h d e2e_src] in
  handled xf5 /\ handled xfa /\ ~ handled xeb /\ ~ handled xff.
Proof. exact ex_C45_reserved. Qed.

Example ex_C59_handler_panics :
  snd (forward_message (registered (e2e_registry ++ [w_panicking])) (Packet (header_layout (repeat x2c 20) x01 ++ [x09])) e2e_src) = Panic PSliceIndex.
Proof. exact ex_C59_handler_panics. Qed.

(** C70, C73: one packet of community 1, received twice *)
Example ex_C70_hypotheses :
  is_registered (e2e_community 1 e2e_mid) e2e_registry /\ length (c_mid (e2e_community 1 e2e_mid)) = 20 /\
  (forall c', In c' e2e_registry -> c_tag c' = c_tag (e2e_community 1 e2e_mid) -> c_mid c' = c_mid (e2e_community 1 e2e_mid)) /\
  is_message_for e2e_mid (header_layout e2e_mid x01 ++ [x09]) = true /\
  exists tr s, run e2e_cfg (net_init e2e_cfg []) tr s /\ idle s /\ arrivals tr = repeat (header_layout e2e_mid x01 ++ [x09], e2e_src) 2 /\
    length (handler_calls 1 (effects_behind e2e_registry 0 tr)) = 2.
Proof. exact ex_C70_hypotheses. Qed.

(** C102, C108: every seed gives a key, and every packet that is not too long can be signed with it *)
Example ex_C102_every_seed :
  forall (from_pkcs8 : list byte -> option (list byte)) (seed msg : list byte), length seed = 32 -> (len msg < 2 ^ 64)%N ->
  exists (k : keypair (ring_ed25519 from_pkcs8)) pk q tail,
    keypair_from_seed_unchecked (ring_ed25519 from_pkcs8) seed = Ok k /\ public_key k = Ok pk /\ packet_sign (Packet msg) k = Ok q /\
    length tail = 32 /\ tail <> skipn (length msg + 32) (packet_raw q).
Proof. exact ex_C102_every_seed. Qed.

(** C50: executions that end with a call and with a receive *)
Example ex_C50_ends :
  (exists tr s, run ex_cfg (net_init ex_cfg []) (tr ++ [LCall 0 ex_p2 ex_src]) s /\ length (calls 0 tr) = 1 /\ length (calls 1 tr) = 1) /\
  (exists tr s, run ex_cfg (net_init ex_cfg []) (tr ++ [LRecv]) s /\ length (calls 0 tr) = 1 /\ recvs tr = 1).
Proof. exact ex_C50_ends. Qed.

(** C49: an execution in which every datagram fits the buffer, and between them one that does not (ex_C48_run) *)
Example ex_C49_fits :
  exists tr s, run ex_cfg (net_init ex_cfg [ex_d2]) tr s /\ between_datagrams s /\ calls 1 tr = [ex_d2] /\
    (forall d, In d ([ex_d2] ++ arrivals tr) -> length (fst d) <= nc_buffersize ex_cfg).
Proof. exact ex_C49_fits. Qed.

(** C63: a packet that is sent to a listener, and received *)
Example ex_C63_sent :
  exists tr s, run ex_cfg (net_init ex_cfg []) tr s /\ idle s /\ length (packet_bytes (Packet ex_p2)) <= nc_buffersize ex_cfg /\
    arrivals tr = map (fun sent => (fst sent, ex_src)) (fst (network_send (fun b _ => Ok (length b)) ex_src (Packet ex_p2))).
Proof. exact ex_C63_sent. Qed.

(** C64: a process with an instance, and one with a listener *)
Example ex_C64_process :
  (exists v, get_instance (after [] [CNew ex_env config_default]) 0 = Some v) /\
  (exists li, nth_error (pr_listeners (after [] [CNew ex_env config_default; CStart 0])) 0 = Some li).
Proof. exact ex_C64_process. Qed.
