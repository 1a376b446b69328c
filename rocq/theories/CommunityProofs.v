(** * CommunityProofs: C41-C47, C59 *)
From Coq Require Import Strings.String.
From Verif Require Import Base Serde Codec Universe Spec SerdeFacts CodecFacts UniverseFacts Packet Client PacketFacts HeaderProofs Sha1 Sha1Spec Sha1Facts Community CommunitySpec.
Open Scope nat_scope.

Lemma get_insert m k v : forall r,
  map_get m (map_insert k v r) = if bytes_eqb m k then Some v else map_get m r.
Proof.
  induction r as [|[k' v'] r IH]; cbn [map_insert map_get].
  - reflexivity.
  - destruct (bytes_eqb k k') eqn:E.
    + apply bytes_eqb_eq in E. subst k'. cbn [map_get]. now destruct (bytes_eqb m k).
    + cbn [map_get]. destruct (bytes_eqb m k') eqn:E2; [|exact IH].
      destruct (bytes_eqb m k) eqn:E3; [|reflexivity].
      apply bytes_eqb_eq in E2. apply bytes_eqb_eq in E3. subst.
      apply not_true_iff_false in E. contradiction E. now apply bytes_eqb_eq.
Qed.
Lemma registered_snoc cs c : registered (cs ++ [c]) = map_insert (c_mid c) c (registered cs).
Proof. unfold registered. now rewrite fold_left_app. Qed.

Lemma get_registered_last m cs1 c cs2 :
  c_mid c = m -> Forall (fun c' => c_mid c' <> m) cs2 ->
  map_get m (registered (cs1 ++ c :: cs2)) = Some c.
Proof.
  intros Hc. induction cs2 as [|c2 cs2 IH] using rev_ind; intros H.
  - rewrite registered_snoc, get_insert. rewrite Hc.
    replace (bytes_eqb m m) with true; [reflexivity|]. symmetry. now apply bytes_eqb_eq.
  - apply Forall_app in H as [H1 H2]. inversion H2; subst.
    change (c :: cs2 ++ [c2]) with ((c :: cs2) ++ [c2]). rewrite app_assoc, registered_snoc, get_insert.
    destruct (bytes_eqb (c_mid c) (c_mid c2)) eqn:E; [apply bytes_eqb_eq in E; congruence|]. now apply IH.
Qed.
Lemma get_registered_none m cs :
  Forall (fun c' => c_mid c' <> m) cs -> map_get m (registered cs) = None.
Proof.
  induction cs as [|c cs IH] using rev_ind; intros H; [reflexivity|].
  apply Forall_app in H as [H1 H2]. inversion H2; subst.
  rewrite registered_snoc, get_insert.
  destruct (bytes_eqb m (c_mid c)) eqn:E; [apply bytes_eqb_eq in E; congruence|]. now apply IH.
Qed.
Lemma get_registered_in m cs c : map_get m (registered cs) = Some c -> In c cs /\ c_mid c = m.
Proof.
  induction cs as [|c' cs IH] using rev_ind; [discriminate|].
  rewrite registered_snoc, get_insert. destruct (bytes_eqb m (c_mid c')) eqn:E.
  - intros [= <-]. apply bytes_eqb_eq in E. split; [apply in_or_app; right; now left|auto].
  - intros H. destruct (IH H). split; [apply in_or_app; now left|assumption].
Qed.

(** C41. A message for community id [m] goes to the community added last among those with id [m]; with no
    such community it is an error and nobody is called. *)
Lemma p_C41_last_writer_wins :
  forall (m : list byte) (mt : byte) (rest : list byte) (from : address) (cs1 : list community) (c : community)
         (cs2 : list community),
    length m = 20 -> c_mid c = m -> Forall (fun c' => c_mid c' <> m) cs2 ->
    let p := Packet (header_layout m mt ++ rest) in
    forward_message (registered (cs1 ++ c :: cs2)) p from =
    receive c (spec_header m mt) (start_deserialize p) from.
Proof.
  intros m mt rest from cs1 c cs2 Hm Hc H p. unfold forward_message, p, start_deserialize.
  rewrite peek_header_ok by (lia || now apply header_prefix_layout). cbn [Nat.add].
  destruct (header_layout_fields m mt rest Hm) as [-> ->].
  cbn [spec_header h_mid_hash]. now rewrite get_registered_last.
Qed.
(** C42. A message for an id nobody registered is an error and calls nobody. *)
Lemma p_C42_unknown_community :
  forall (m : list byte) (mt : byte) (rest : list byte) (from : address) (cs : list community),
    length m = 20 -> Forall (fun c' => c_mid c' <> m) cs ->
    forward_message (registered cs) (Packet (header_layout m mt ++ rest)) from = ([], Err EUnknownCommunityError).
Proof.
  intros m mt rest from cs Hm H. unfold forward_message, start_deserialize.
  rewrite peek_header_ok by (lia || now apply header_prefix_layout). cbn [Nat.add].
  destruct (header_layout_fields m mt rest Hm) as [-> ->].
  cbn [spec_header h_mid_hash]. now rewrite get_registered_none.
Qed.
(** C41. Adding a community never fails and leaves messages for other ids alone. *)
Lemma p_C41_others_unaffected :
  forall (cs : list community) (c : community) (m : list byte) (mt : byte) (rest : list byte) (from : address),
    length m = 20 -> c_mid c <> m ->
    snd (add_community (registered cs) c) = Ok tt /\
    forward_message (registered (cs ++ [c])) (Packet (header_layout m mt ++ rest)) from =
    forward_message (registered cs) (Packet (header_layout m mt ++ rest)) from.
Proof.
  intros cs c m mt rest from Hm H. split; [reflexivity|]. unfold forward_message, start_deserialize.
  rewrite peek_header_ok by (lia || now apply header_prefix_layout). cbn [Nat.add].
  destruct (header_layout_fields m mt rest Hm) as [-> ->].
  cbn [spec_header h_mid_hash]. rewrite registered_snoc, get_insert.
  destruct (bytes_eqb m (c_mid c)) eqn:E; [apply bytes_eqb_eq in E; congruence|reflexivity].
Qed.
Definition sample (tag : nat) (mid : list byte) : community :=
  {| c_tag := tag; c_mid := mid; c_on_receive := fun _ _ _ => Err (EUser tag) |}.
Example ex_C41_three :
  let m := repeat x2a 20 in
  snd (forward_message (registered [sample 1 m; sample 2 (repeat x2b 20); sample 3 m])
         (Packet (header_layout m x01)) (V4 x7f x00 x00 x01 80%N)) = Err (EUser 3).
Proof. vm_compute. reflexivity. Qed.

(** ** Routing *)

Lemma receive_spec c h d a t :
  h_message_type h = Some t ->
  receive c h d a =
    if deprecated t then (fst (receive c h d a), Ok tt)
    else ([Handled (c_tag c) h d a], c_on_receive c h d a).
Proof.
  intros Ht. unfold receive. rewrite Ht.
  destruct (deprecated t) eqn:E.
  - unfold deprecated in E. cbn [existsb] in E.
    repeat (apply orb_true_iff in E as [E|E]; [apply N.eqb_eq in E; subst t; reflexivity|]). discriminate E.
  - assert (N : forall k, In k [235; 236; 237; 238; 239; 240; 241; 242; 243; 244; 247; 248; 251; 252; 253; 254; 255]%N -> t <> k).
    { intros k Hk ->. apply not_true_iff_false in E. apply E. unfold deprecated. apply existsb_exists.
      exists k. split; [assumption|apply N.eqb_refl]. }
    destruct t as [|p]; [reflexivity|].
    do 8 (destruct p as [p|p|]; try reflexivity);
      exfalso; match goal with H : forall k, In k _ -> ?t <> k |- _ => apply (H t); [cbn; tauto|reflexivity] end.
Qed.
Lemma receive_warned c h d a t :
  h_message_type h = Some t -> deprecated t = true ->
  exists m, fst (receive c h d a) = [Warned m a].
Proof.
  intros Ht E. unfold receive. rewrite Ht.
  unfold deprecated in E. cbn [existsb] in E.
  repeat (apply orb_true_iff in E as [E|E]; [apply N.eqb_eq in E; subst t; eexists; reflexivity|]). discriminate E.
Qed.

(** C42. Whatever bytes arrive: a handler is called only when the header is well formed, it is the handler of
    a registered community whose id is bytes 2..21, and nothing else is called. *)
Lemma p_C42_routing :
  forall (cs : list community) (p : list byte) (from : address) (tag : nat) (h : header) (d : deserializer) (a : address),
    let effects := fst (forward_message (registered cs) (Packet p) from) in
    In (Handled tag h d a) effects ->
    effects = [Handled tag h d a] /\
    23 <= length p /\ byte_at p 0 = x00 /\ byte_at p 1 = x02 /\
    exists c, In c cs /\ c_tag c = tag /\ c_mid c = firstn 20 (skipn 2 p).
Proof.
  intros cs p from tag h d a effects. unfold effects, forward_message, start_deserialize.
  destruct (header_prefix_ok (skipn 0 p)) eqn:E.
  2:{ destruct (peek_header_err p 0 ltac:(lia) E) as [e ->]. intros []. }
  rewrite peek_header_ok by (lia || exact E). apply header_prefix_ok_iff in E as (H1 & H2 & H3).
  cbn [Nat.add spec_header h_mid_hash] in *.
  destruct (map_get _ (registered cs)) as [c|] eqn:G; [|intros []].
  apply get_registered_in in G as [G1 G2].
  set (hd := spec_header _ _).
  assert (Ht : h_message_type hd = Some (N_of_byte (byte_at p 22))) by reflexivity.
  destruct (deprecated (N_of_byte (byte_at p 22))) eqn:D.
  - destruct (receive_warned c hd (Deserializer (Packet p) 0) from _ Ht D) as [m ->].
    intros [H|[]]. discriminate H.
  - rewrite (receive_spec c _ _ _ _ Ht), D. cbn [fst]. intros [H|[]]. injection H as <- <- <- <-.
    split; [reflexivity|]. repeat split; try assumption. exists c. auto.
Qed.
(** C42. A malformed header is an error and calls nobody. *)
Lemma p_C42_malformed_header :
  forall (cs : list community) (p : list byte) (from : address),
    ~ (23 <= length p /\ byte_at p 0 = x00 /\ byte_at p 1 = x02) ->
    exists e, forward_message (registered cs) (Packet p) from = ([], Err e).
Proof.
  intros cs p from H. unfold forward_message, start_deserialize.
  destruct (header_prefix_ok (skipn 0 p)) eqn:E.
  - apply header_prefix_ok_iff in E. contradiction.
  - destruct (peek_header_err p 0 ltac:(lia) E) as [e ->]. now exists e.
Qed.

(** C43. The handler gets the decoded header, the whole packet with the cursor at 0, and the sender, and its
    result is returned. *)
Lemma p_C43_handler_arguments :
  forall (m : list byte) (mt : byte) (rest : list byte) (from : address) (cs1 : list community) (c : community)
         (cs2 : list community),
    length m = 20 -> c_mid c = m -> Forall (fun c' => c_mid c' <> m) cs2 ->
    deprecated (N_of_byte mt) = false ->
    let p := Packet (header_layout m mt ++ rest) in
    let d := {| pntr := p; index := 0 |} in
    forward_message (registered (cs1 ++ c :: cs2)) p from =
    ([Handled (c_tag c) (spec_header m mt) d from], c_on_receive c (spec_header m mt) d from).
Proof.
  intros m mt rest from cs1 c cs2 Hm Hc H D p d. unfold p, d.
  rewrite p_C41_last_writer_wins by assumption.
  rewrite (receive_spec c _ _ _ (N_of_byte mt)) by reflexivity. now rewrite D.
Qed.
Example ex_C43_some_type : deprecated (N_of_byte x2a) = false.
Proof. reflexivity. Qed.

(** C44. Exactly the listed types are swallowed, with one warning and [Ok]. *)
Lemma p_C44_deprecated_types :
  forall (m : list byte) (mt : byte) (rest : list byte) (from : address) (cs1 : list community) (c : community)
         (cs2 : list community),
    length m = 20 -> c_mid c = m -> Forall (fun c' => c_mid c' <> m) cs2 ->
    let t := N_of_byte mt in
    let r := forward_message (registered (cs1 ++ c :: cs2)) (Packet (header_layout m mt ++ rest)) from in
    ((235 <= t <= 244)%N \/ t = 247%N \/ t = 248%N \/ (251 <= t <= 255)%N ->
       exists w, r = ([Warned w from], Ok tt)) /\
    (~ ((235 <= t <= 244)%N \/ t = 247%N \/ t = 248%N \/ (251 <= t <= 255)%N) ->
       exists h d, r = ([Handled (c_tag c) h d from], c_on_receive c h d from)).
Proof.
  intros m mt rest from cs1 c cs2 Hm Hc H t r. unfold r. rewrite p_C41_last_writer_wins by assumption.
  assert (D : deprecated t = true <-> (235 <= t <= 244)%N \/ t = 247%N \/ t = 248%N \/ (251 <= t <= 255)%N).
  { unfold t. clear. destruct mt; vm_compute; split; intros H; try discriminate H; try reflexivity;
      try (exfalso; intuition congruence); intuition congruence. }
  set (h := spec_header m mt). set (d := start_deserialize _).
  assert (Ht : h_message_type h = Some t) by reflexivity.
  rewrite <- D. split; intros X.
  - destruct (receive_warned c h d from t Ht X) as [w W]. exists w.
    rewrite (receive_spec c h d from t Ht), X, W. reflexivity.
  - apply not_true_iff_false in X. exists h, d. rewrite (receive_spec c h d from t Ht), X. reflexivity.
Qed.

(** C44. The filter itself, for every header a caller can build (also ones that no packet decodes to: type missing,
    or above 255): no type is an error and calls nobody, a type of the old protocol gives exactly one warning with the
    name of that message, and every other type reaches the handler with the header, packet and sender unchanged. *)
Lemma p_C44_every_header :
  forall (c : community) (h : header) (d : deserializer) (from : address),
    (h_message_type h = None -> receive c h d from = ([], Err EHeaderUnwrapError)) /\
    (forall (t : N) (name : string), h_message_type h = Some t -> In (t, name) old_protocol_messages ->
       receive c h d from = ([Warned name from], Ok tt)) /\
    (forall (t : N), h_message_type h = Some t -> ~ In t (map fst old_protocol_messages) ->
       receive c h d from = ([Handled (c_tag c) h d from], c_on_receive c h d from)).
Proof.
  intros c h d from. repeat split.
  - intros H. unfold receive. now rewrite H.
  - intros t name H I. unfold receive. rewrite H. unfold old_protocol_messages in I. cbn [In] in I.
    repeat (destruct I as [I|I]; [injection I as <- <-; reflexivity|]). destruct I.
  - intros t H I. rewrite (receive_spec c h d from t H).
    replace (deprecated t) with false; [reflexivity|]. symmetry. apply not_true_iff_false. intros D. apply I.
    unfold deprecated in D. apply existsb_exists in D as (k & K & E). apply N.eqb_eq in E. subst k. exact K.
Qed.
Example ex_C44_three_headers :
  let c := {| c_tag := 5; c_mid := []; c_on_receive := fun _ _ _ => Err EUnknownCommunityError |} in
  let d := start_deserialize (Packet []) in
  let from := V4 x7f x00 x00 x01 80%N in
  let h t := Header 23 PyIPV8Header (Some []) t in
  receive c (h None) d from = ([], Err EHeaderUnwrapError) /\
  receive c (h (Some 248%N)) d from = ([Warned "on-identity" from], Ok tt) /\
  receive c (h (Some 4096%N)) d from = ([Handled 5 (h (Some 4096%N)) d from], Err EUnknownCommunityError).
Proof. now vm_compute. Qed.

(** C45. The documented range 235..255 is not captured completely: exactly 245, 246, 249 and 250 get through
    to the handler. *)
Lemma p_C45_reserved_range_refuted :
  forall (m : list byte) (mt : byte) (rest : list byte) (from : address) (cs1 : list community) (c : community)
         (cs2 : list community),
    length m = 20 -> c_mid c = m -> Forall (fun c' => c_mid c' <> m) cs2 ->
    let t := N_of_byte mt in
    (235 <= t <= 255)%N ->
    let r := forward_message (registered (cs1 ++ c :: cs2)) (Packet (header_layout m mt ++ rest)) from in
    ((exists h d, r = ([Handled (c_tag c) h d from], c_on_receive c h d from)) <->
     t = 245%N \/ t = 246%N \/ t = 249%N \/ t = 250%N).
Proof.
  intros m mt rest from cs1 c cs2 Hm Hc H t Ht r.
  destruct (p_C44_deprecated_types m mt rest from cs1 c cs2 Hm Hc H) as [A B].
  fold t r in A, B. split.
  - intros (h & d & E).
    assert (~ ((235 <= t <= 244)%N \/ t = 247%N \/ t = 248%N \/ (251 <= t <= 255)%N)) as X.
    { intros X. destruct (A X) as [w W]. rewrite W in E. discriminate E. }
    lia.
  - intros X. apply B. lia.
Qed.
(** C45. Concretely: a community registered alone is handed messages of the reserved types f5, f6, f9 and fa. *)
Lemma p_C45_handler_sees_reserved :
  forall (m rest : list byte) (from : address) (c : community) (mt : byte),
    length m = 20 -> c_mid c = m -> In mt [xf5; xf6; xf9; xfa] ->
    (235 <= N_of_byte mt <= 255)%N /\
    exists h d, fst (forward_message (registered [c]) (Packet (header_layout m mt ++ rest)) from)
                = [Handled (c_tag c) h d from].
Proof.
  intros m rest from c mt Hm Hc Hmt. split.
  - cbn [In] in Hmt. intuition (subst mt; vm_compute; congruence).
  - change [c] with ([] ++ c :: []). do 2 eexists.
    rewrite p_C43_handler_arguments; try assumption; [reflexivity|constructor|].
    cbn [In] in Hmt. intuition (subst mt; reflexivity).
Qed.

(** C46. Whoever is called has a 20-byte id: communities with any other id never get a packet. *)
Lemma p_C46_only_20_byte_ids :
  forall (cs : list community) (p : list byte) (from : address) (tag : nat) (h : header) (d : deserializer) (a : address),
    In (Handled tag h d a) (fst (forward_message (registered cs) (Packet p) from)) ->
    exists c, In c cs /\ c_tag c = tag /\ length (c_mid c) = 20.
Proof.
  intros cs p from tag h d a H.
  destruct (p_C42_routing cs p from tag h d a H) as (_ & L & _ & _ & c & C1 & C2 & C3).
  exists c. repeat split; try assumption. rewrite C3, firstn_length, skipn_length. lia.
Qed.
Example ex_C46_short_id :
  let c := sample 7 [x01; x02; x03] in
  map_get [x01; x02; x03] (registered [c]) = Some c /\
  fst (forward_message (registered [c]) (Packet (header_layout ([x01; x02; x03] ++ repeat x00 17) x01)) (V4 x7f x00 x00 x01 80%N)) = [].
Proof. now vm_compute. Qed.

(** C47. The id is the SHA-1 (FIPS 180-4, Sha1Spec.v) of the public key. *)
Lemma p_C47_id_is_sha1 :
  forall (pe : peer) (digest : list byte),
    (len (peer_key pe) < 2 ^ 61)%N ->
    is_sha1 (peer_key pe) digest <-> digest = get_sha1 pe.
Proof.
  intros pe d H. pose proof (sha1_is_sha1 (peer_key pe) H) as S. split.
  - intros D. exact (is_sha1_unique _ _ _ D S).
  - intros ->. exact S.
Qed.
(** C47. Peer ids have 20 bytes; a community using one as its id is reached by packets carrying it. *)
Lemma p_C47_peer_ids_routable :
  forall (pe : peer) (c : community) (mt : byte) (rest : list byte) (from : address) (cs1 cs2 : list community),
    c_mid c = get_sha1 pe -> Forall (fun c' => c_mid c' <> get_sha1 pe) cs2 ->
    deprecated (N_of_byte mt) = false ->
    length (get_sha1 pe) = 20 /\
    exists p, packet_new (py_ipv8_header (get_sha1 pe) mt) = Ok p /\
      fst (forward_message (registered (cs1 ++ c :: cs2)) (Packet (packet_raw p ++ rest)) from) =
        [Handled (c_tag c) (spec_header (get_sha1 pe) mt) (start_deserialize (Packet (packet_raw p ++ rest))) from].
Proof.
  intros pe c mt rest from cs1 cs2 Hc H D.
  assert (L : length (get_sha1 pe) = 20).
  { unfold get_sha1, sha1. rewrite !app_length, !be_length. reflexivity. }
  split; [exact L|]. exists (Packet (header_layout (get_sha1 pe) mt)). split.
  - unfold py_ipv8_header. rewrite packet_new_complete, byte_of_N_of_byte. reflexivity.
  - unfold packet_raw. cbn [packet_bytes]. now rewrite p_C43_handler_arguments.
Qed.
Example ex_C47_sha1 :
  sha1 (ascii "abc") = bs [0xa9;0x99;0x3e;0x36;0x47;0x06;0x81;0x6a;0xba;0x3e;0x25;0x71;0x78;0x50;0xc2;0x6c;0x9c;0xd0;0xd8;0x9d]%N.
Proof. vm_compute. reflexivity. Qed.

Example ex_C47_sha1_two_blocks :
  sha1 (ascii "abcdbcdecdefdefgefghfghighijhijkijkljklmklmnlmnomnopnopq") =
  bs [0x84;0x98;0x3e;0x44;0x1c;0x3b;0xd2;0x6e;0xba;0xae;0x4a;0xa1;0xf9;0x51;0x29;0xe5;0xe5;0x46;0x70;0xf1]%N.
Proof. vm_compute. reflexivity. Qed.

(** C59. Forwarding is safe on all bytes: if it panics, the called handler did. *)
Lemma p_C59_forwarding_never_panics :
  forall (cs : list community) (p : list byte) (from : address) (x : panic),
    snd (forward_message (registered cs) (Packet p) from) = Panic x ->
    exists c h d, In c cs /\ c_on_receive c h d from = Panic x /\
      fst (forward_message (registered cs) (Packet p) from) = [Handled (c_tag c) h d from].
Proof.
  intros cs p from x. unfold forward_message, start_deserialize.
  destruct (header_prefix_ok (skipn 0 p)) eqn:E.
  2:{ destruct (peek_header_err p 0 ltac:(lia) E) as [e ->]. discriminate. }
  rewrite peek_header_ok by (lia || exact E). cbn [Nat.add spec_header h_mid_hash].
  destruct (map_get _ (registered cs)) as [c|] eqn:G; [|discriminate].
  apply get_registered_in in G as [G1 G2].
  set (hd := spec_header _ _).
  assert (Ht : h_message_type hd = Some (N_of_byte (byte_at p 22))) by reflexivity.
  rewrite (receive_spec c _ _ _ _ Ht).
  destruct (deprecated _); [discriminate|]. cbn [fst snd]. intros H.
  exists c, hd, (Deserializer (Packet p) 0). auto.
Qed.
