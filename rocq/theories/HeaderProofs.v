(** * HeaderProofs: C01-C04 *)
From Coq Require Import Strings.String.
From Verif Require Import Base Serde Codec Universe Spec SerdeFacts CodecFacts UniverseFacts Packet Client PacketFacts.
Open Scope nat_scope.

Lemma header_prefix_layout mid t tail :
  length mid = 20 -> header_prefix_ok (header_layout mid t ++ tail) = true.
Proof.
  intros H. change (header_layout mid t ++ tail) with (skipn 0 (header_layout mid t ++ tail)).
  apply header_prefix_ok_iff. unfold header_layout.
  rewrite !app_length, H. cbn. split; [lia|auto].
Qed.
Lemma header_layout_fields mid t tail :
  length mid = 20 ->
  firstn 20 (skipn 2 (header_layout mid t ++ tail)) = mid /\ byte_at (header_layout mid t ++ tail) 22 = t.
Proof.
  intros H. unfold header_layout. cbn [app skipn].
  rewrite <- app_assoc, firstn_app_exact by assumption. split; [reflexivity|].
  change (byte_at (x00 :: x02 :: mid ++ [t] ++ tail) 22) with (byte_at (mid ++ [t] ++ tail) (20 + 0)).
  rewrite <- byte_at_skipn, skipn_app_exact by assumption. reflexivity.
Qed.

(** C01. A header built by [py_ipv8_header] from a 20-byte community id and a message type is written as
    the bytes 00 02, the id and the type, and read back exactly, whatever follows it. *)
Lemma p_C01_header_round_trip :
  forall (mid : list byte) (t : byte) (tail : list byte),
    length mid = 20 ->
    exists p,
      packet_new (py_ipv8_header mid t) = Ok p /\
      packet_raw p = [x00; x02] ++ mid ++ [t] /\
      let d := start_deserialize (Packet (packet_raw p ++ tail)) in
      peek_header d = Ok (spec_header mid t) /\
      pop_header d = ({| pntr := pntr d; index := 23 |}, Ok (spec_header mid t)) /\
      py_ipv8_header mid t = spec_header mid t.
Proof.
  intros mid t tail Hm.
  exists (Packet (header_layout mid t)). unfold packet_raw. cbn [packet_bytes].
  assert (E : peek_header (Deserializer (Packet (header_layout mid t ++ tail)) 0) = Ok (spec_header mid t)).
  { rewrite peek_header_ok; [|lia|now apply header_prefix_layout]. cbn [Nat.add].
    destruct (header_layout_fields mid t tail Hm) as [-> ->]. reflexivity. }
  split; [|split; [reflexivity|]].
  - unfold py_ipv8_header. rewrite packet_new_complete, byte_of_N_of_byte. reflexivity.
  - cbv zeta. unfold start_deserialize. split; [exact E|]. split; [|reflexivity].
    unfold pop_header. rewrite E. reflexivity.
Qed.
Example ex_C01_mid : length (repeat x2a 20) = 20.
Proof. reflexivity. Qed.

(** C02. [peek_header] succeeds exactly on 23 bytes starting with 00 02, at the cursor. *)
Lemma p_C02_header_decoding_exact :
  forall (p : list byte) (i : nat) (h : header),
    i <= length p ->
    (peek_header (Deserializer (Packet p) i) = Ok h <->
     i + 23 <= length p /\ byte_at p i = x00 /\ byte_at p (i + 1) = x02 /\
     h = spec_header (firstn 20 (skipn (i + 2) p)) (byte_at p (i + 22))).
Proof.
  intros p i h Hi. destruct (header_prefix_ok (skipn i p)) eqn:E.
  - rewrite peek_header_ok by assumption. apply header_prefix_ok_iff in E as (H1 & H2 & H3).
    split; [intros [= <-]; auto|intros (_ & _ & _ & ->); reflexivity].
  - destruct (peek_header_err p i Hi E) as [e ->]. split; [discriminate|].
    intros (H1 & H2 & H3 & _). exfalso.
    assert (T : header_prefix_ok (skipn i p) = true) by (apply header_prefix_ok_iff; auto).
    congruence.
Qed.
(** C02. Everything else is an error, not a panic; and only a cursor outside the packet panics. *)
Lemma p_C02_header_decoding_total :
  forall (p : list byte) (i : nat),
    (i <= length p -> is_panic (peek_header (Deserializer (Packet p) i)) = false) /\
    (length p < i -> is_panic (peek_header (Deserializer (Packet p) i)) = true).
Proof.
  intros p i. split; intros Hi.
  - destruct (header_prefix_ok (skipn i p)) eqn:E.
    + now rewrite peek_header_ok.
    + now destruct (peek_header_err p i Hi E) as [e ->].
  - now rewrite peek_header_panic.
Qed.
Example ex_C02_mid_packet :
  peek_header (Deserializer (Packet ([xff; xff] ++ [x00; x02] ++ repeat x2a 20 ++ [x07; x99])) 2)
  = Ok (spec_header (repeat x2a 20) x07).
Proof. vm_compute. reflexivity. Qed.

(** C03. No packet comes out of a header without id or without message type; the error says so. *)
Lemma p_C03_incomplete_header_rejected :
  forall h : header,
    (exists p, packet_new h = Ok p) <-> (h_mid_hash h <> None /\ h_message_type h <> None).
Proof.
  intros [size [] [mid|] [t|]]; cbn [h_mid_hash h_message_type].
  - split; [now split|]. intros _. rewrite packet_new_complete. eauto.
  - split; [intros [p H]; discriminate|intros [_ H]; contradiction].
  - split; [intros [p H]; discriminate|intros [H _]; contradiction].
  - split; [intros [p H]; discriminate|intros [H _]; contradiction].
Qed.
Lemma p_C03_incomplete_header_error :
  forall h : header,
    (h_mid_hash h = None \/ h_message_type h = None) -> packet_new h = Err EHeaderError.
Proof.
  intros [size [] [mid|] [t|]] [H|H]; cbn in H; try discriminate; reflexivity.
Qed.
Example ex_C03_no_mid :
  packet_new {| h_size := 23; h_version := PyIPV8Header; h_mid_hash := None; h_message_type := Some 1%N |}
  = Err EHeaderError.
Proof. reflexivity. Qed.

(** C04. Exactly when does the receiver decode the header the packet was made from: the community id has
    20 bytes, the message type fits a byte and the size field is 23. *)
Lemma p_C04_header_preserved_iff :
  forall (h : header) (p : packet),
    packet_new h = Ok p ->
    (peek_header (start_deserialize p) = Ok h <->
     exists mid t, h_mid_hash h = Some mid /\ length mid = 20 /\
                   h_message_type h = Some t /\ (t < 256)%N /\ h_size h = 23).
Proof.
  intros [size [] [mid|] [t|]] p; try discriminate. rewrite packet_new_complete. intros [= <-].
  unfold start_deserialize. rewrite p_C02_header_decoding_exact by lia.
  cbn [h_mid_hash h_message_type h_size Nat.add].
  split.
  - intros (L & _ & _ & E). unfold spec_header in E.
    assert (E0 : size = 23) by congruence.
    assert (E1 : mid = firstn 20 (skipn 2 (header_layout mid (byte_of_N t)))) by congruence.
    assert (E2 : t = N_of_byte (byte_at (header_layout mid (byte_of_N t)) 22)) by congruence.
    assert (Hm : length mid = 20).
    { unfold header_layout in L. rewrite !app_length in L. cbn [length] in L.
      apply (f_equal (@length byte)) in E1. rewrite firstn_length, skipn_length in E1.
      unfold header_layout in E1. rewrite !app_length in E1. cbn [length] in E1. lia. }
    exists mid, t. repeat split; auto. rewrite E2. apply N_of_byte_lt.
  - intros (mid' & t' & [= <-] & Hm & [= <-] & Ht & ->).
    destruct (header_layout_fields mid (byte_of_N t) [] Hm) as [F1 F2]. rewrite app_nil_r in F1, F2.
    rewrite F1, F2. repeat split.
    + unfold header_layout. rewrite !app_length, Hm. cbn. lia.
    + unfold spec_header. now rewrite N_of_byte_of_N, N.mod_small.
Qed.
(** C04, refuted as stated: [Packet::new] accepts a header that another header comes out of: here a
    21-byte id and message type 256+5 are delivered to a different community as a different type. *)
Lemma p_C04_header_silently_changed_refuted :
  exists (h h' : header) (p : packet),
    packet_new h = Ok p /\ peek_header (start_deserialize p) = Ok h' /\
    h_mid_hash h' <> h_mid_hash h /\ h_message_type h' <> h_message_type h.
Proof.
  exists {| h_size := 23; h_version := PyIPV8Header; h_mid_hash := Some (repeat x2a 21);
            h_message_type := Some 261%N |}.
  eexists. eexists. split; [reflexivity|]. split; [vm_compute; reflexivity|].
  split; discriminate.
Qed.
