(** * EndToEndProofs *)
From Coq Require Import Strings.String.
From Verif Require Import Base Serde Codec Universe Spec SerdeFacts CodecFacts UniverseFacts Packet Client PacketFacts HeaderProofs
  CodecProofs CursorProofs CryptoProofs Community CommunitySpec CommunityProofs Network NetSpec NetworkProofs EndToEndSpec.
Open Scope nat_scope.

Lemma handler_calls_app tag a b : handler_calls tag (a ++ b) = handler_calls tag a ++ handler_calls tag b.
Proof. induction a as [|[m f|t h d f] a IH]; cbn; auto. destruct (t =? tag); cbn; congruence. Qed.
Lemma handler_calls_in tag l h d a : In (h, d, a) (handler_calls tag l) <-> In (Handled tag h d a) l.
Proof.
  induction l as [|[m f|t h' d' f] l IH]; cbn; [tauto| |].
  - rewrite IH. split; [auto|]. intros [E|E]; [discriminate|auto].
  - destruct (Nat.eqb_spec t tag) as [->|Ne]; cbn; rewrite IH.
    + split; (intros [E|E]; [left; congruence|auto]).
    + split; [auto|]. intros [E|E]; [congruence|auto].
Qed.
Lemma handler_calls_none tag l : (forall h d a, ~ In (Handled tag h d a) l) -> handler_calls tag l = [].
Proof.
  intros H. destruct (handler_calls tag l) as [|[[h d] a] r] eqn:E; [reflexivity|].
  exfalso. apply (H h d a). apply handler_calls_in. rewrite E. now left.
Qed.

Lemma split_at {A} (d : A) n : forall l, n < length l -> l = firstn n l ++ nth n l d :: skipn (S n) l.
Proof. induction n; intros [|x l] H; cbn in *; try lia; auto. f_equal. apply IHn. lia. Qed.
Lemma message_split pkt : 23 <= length pkt -> byte_at pkt 0 = x00 -> byte_at pkt 1 = x02 ->
  exists m mt rest, length m = 20 /\ pkt = header_layout m mt ++ rest.
Proof.
  intros L H0 H1. exists (firstn 20 (skipn 2 pkt)), (byte_at pkt 22), (skipn 23 pkt).
  split; [rewrite firstn_length, skipn_length; lia|].
  destruct pkt as [|a [|b pkt]]; cbn in L; try lia. cbn in H0, H1. subst a b.
  cbn [skipn]. unfold header_layout, byte_at. cbn [nth app].
  rewrite <- app_assoc. cbn [app]. do 2 f_equal. apply (split_at x00 20 pkt). cbn in L. lia.
Qed.

Lemma is_message_layout m m' mt rest : length m = 20 -> length m' = 20 ->
  is_message_for m' (header_layout m mt ++ rest) = bytes_eqb m m' && negb (deprecated (N_of_byte mt)).
Proof.
  intros L L'. unfold is_message_for.
  rewrite (proj2 (header_layout_fields m mt rest L)).
  replace (23 <=? _) with true by (symmetry; apply Nat.leb_le; unfold header_layout; rewrite !app_length; cbn; lia).
  cbn [andb]. f_equal.
  replace (firstn 22 (header_layout m mt ++ rest)) with ([x00; x02] ++ m).
  2:{ unfold header_layout. rewrite app_assoc, <- app_assoc.
      symmetry. apply firstn_app_exact. cbn. lia. }
  destruct (bytes_eqb m m') eqn:E.
  - apply bytes_eqb_eq in E as ->. apply bytes_eqb_refl.
  - apply bytes_eqb_neq. apply bytes_eqb_neq in E. intros H. apply E. now apply app_inv_head in H.
Qed.
Lemma is_message_prefix m pkt : length m = 20 -> is_message_for m pkt = true ->
  23 <= length pkt /\ byte_at pkt 0 = x00 /\ byte_at pkt 1 = x02.
Proof.
  intros Lm H. unfold is_message_for in H. apply andb_true_iff in H as [H _]. apply andb_true_iff in H as [H E].
  apply Nat.leb_le in H. apply bytes_eqb_eq in E. split; [exact H|].
  destruct pkt as [|a [|b pkt]]; cbn in H; try lia. cbn in E. injection E as -> -> _. auto.
Qed.

Lemma forward_one cs c : is_registered c cs -> length (c_mid c) = 20 ->
  (forall c', In c' cs -> c_tag c' = c_tag c -> c_mid c' = c_mid c) ->
  forall x, handler_calls (c_tag c) (forward cs x) =
            if is_message_for (c_mid c) (fst x) then [as_handled x] else [].
Proof.
  intros (cs1 & cs2 & -> & F) L T [pkt src]. unfold forward. cbn [fst snd].
  destruct (is_message_for (c_mid c) pkt) eqn:M.
  - destruct (is_message_prefix _ _ L M) as (Lp & H0 & H1).
    destruct (message_split pkt Lp H0 H1) as (m & mt & rest & Lm & ->).
    rewrite is_message_layout in M by assumption. apply andb_true_iff in M as [E D].
    apply bytes_eqb_eq in E. apply negb_true_iff in D. subst m.
    pose proof (p_C43_handler_arguments (c_mid c) mt rest src cs1 c cs2 L eq_refl F D) as K. cbn zeta in K. rewrite K.
    cbn [fst handler_calls]. rewrite Nat.eqb_refl. unfold as_handled. cbn [fst snd].
    destruct (header_layout_fields (c_mid c) mt rest L) as [-> ->]. reflexivity.
  - apply handler_calls_none. intros h d a H.
    destruct (p_C42_routing _ _ _ _ _ _ _ H) as (_ & Lp & H0 & H1 & c' & Hin & Tg & Em).
    apply T in Tg; [|exact Hin]. rewrite Tg in Em.
    destruct (message_split pkt Lp H0 H1) as (m & mt & rest & Lm & ->).
    rewrite (proj1 (header_layout_fields m mt rest Lm)) in Em. subst m.
    rewrite is_message_layout, bytes_eqb_refl in M by assumption. cbn in M.
    apply negb_false_iff in M.
    rewrite (p_C41_last_writer_wins (c_mid c) mt rest src cs1 c cs2 L eq_refl F) in H.
    destruct (receive_warned c (spec_header (c_mid c) mt) (start_deserialize (Packet (header_layout (c_mid c) mt ++ rest))) src (N_of_byte mt)) as (w & W);
      [reflexivity | exact M |].
    rewrite W in H. destruct H as [H|[]]. discriminate H.
Qed.

Lemma forward_many cs c : is_registered c cs -> length (c_mid c) = 20 ->
  (forall c', In c' cs -> c_tag c' = c_tag c -> c_mid c' = c_mid c) ->
  forall l, handler_calls (c_tag c) (flat_map (forward cs) l) =
            map as_handled (filter (fun x => is_message_for (c_mid c) (fst x)) l).
Proof.
  intros R L T l. induction l as [|x l IH]; [reflexivity|]. cbn [flat_map filter].
  rewrite handler_calls_app, IH, (forward_one cs c R L T).
  destruct (is_message_for (c_mid c) (fst x)); reflexivity.
Qed.

(** C70. From the socket to the handler: between datagrams, the handler of a registered community has been called exactly
    once for each received datagram that is (after truncation to the receive buffer) a message for it, in the order of
    reception, each time with the decoded header, the packet with the cursor at 0 and the sender's address; and for
    nothing else. *)
Lemma p_C70_community_gets_exactly_its_messages :
  forall (cfg : net_config) (q0 : list datagram) (tr : list label) (s : net_state) (r : nat)
         (cs : list community) (c : community),
    run cfg (net_init cfg q0) tr s -> between_datagrams s -> r < nc_receivers cfg ->
    is_registered c cs -> length (c_mid c) = 20 ->
    (forall c', In c' cs -> c_tag c' = c_tag c -> c_mid c' = c_mid c) ->
    handler_calls (c_tag c) (effects_behind cs r tr) =
    map as_handled (filter (fun x => is_message_for (c_mid c) (fst x)) (map (packet_of cfg) (received q0 tr))).
Proof.
  intros cfg q0 tr s r cs c R B Hr Reg L T. unfold effects_behind. rewrite (forward_many cs c Reg L T).
  destruct (p_C48_exactly_once_in_order _ _ _ _ r R) as [D _]. destruct (D Hr) as (m & E & _ & Em).
  rewrite (Em B), app_nil_r in E. now rewrite <- E.
Qed.

(** C70, at every moment: what a handler has been called with is a prefix of that list, so the order never changes, and at
    most the datagram being dispatched is missing. *)
Lemma p_C70_prefix_at_every_moment :
  forall (cfg : net_config) (q0 : list datagram) (tr : list label) (s : net_state) (r : nat)
         (cs : list community) (c : community),
    run cfg (net_init cfg q0) tr s -> r < nc_receivers cfg ->
    is_registered c cs -> length (c_mid c) = 20 ->
    (forall c', In c' cs -> c_tag c' = c_tag c -> c_mid c' = c_mid c) ->
    exists missing, length missing <= 1 /\
      map as_handled (filter (fun x => is_message_for (c_mid c) (fst x)) (map (packet_of cfg) (received q0 tr))) =
      handler_calls (c_tag c) (effects_behind cs r tr) ++ missing.
Proof.
  intros cfg q0 tr s r cs c R Hr Reg L T. unfold effects_behind. rewrite (forward_many cs c Reg L T).
  destruct (p_C48_exactly_once_in_order _ _ _ _ r R) as [D _]. destruct (D Hr) as (m & E & Lm & _).
  rewrite E, filter_app, map_app. eexists. split; [|reflexivity].
  rewrite map_length. destruct m as [|x [|y m]]; cbn in *; [lia| |lia].
  destruct (is_message_for (c_mid c) (fst x)); cbn; lia.
Qed.

Lemma add_all_prefix l : forall p q, add_all p l = Ok q -> exists m, packet_bytes q = packet_bytes p ++ m.
Proof.
  induction l as [|[t v] l IH]; intros p q H; cbn in H.
  - injection H as <-. exists []. now rewrite app_nil_r.
  - unfold packet_add, packet_extend in H. destruct (bincode_serialize (ser t v)) as [i|e|e]; try discriminate.
    destruct (IH _ _ H) as [m ->]. cbn. exists (i ++ m). now rewrite app_assoc.
Qed.

(** C71. A signed message, from the sender's API to the receiver's: a peer builds a packet for community [c] - header,
    authentication payload with its key, any payloads - signs it and sends it. Whatever other datagrams the network brings,
    and in whatever order: once the listener has received these bytes, the handler of [c] has been called with a deserializer
    from which it can pop the header, verify (true), and read back all the payloads in order. *)
Lemma p_C71_signed_message_reaches_the_handler :
  forall (C : ed25519), ed25519_laws C ->
  forall (k : keypair C) (pk ekey : list byte) (mt : byte) (l : list payload) (p0 unsigned signed : packet)
         (os : list byte -> address -> outcome nat) (dst src : address)
         (cfg : net_config) (q0 : list datagram) (tr : list label) (s : net_state) (r : nat)
         (cs : list community) (c : community),
    (* the sender *)
    public_key k = Ok pk -> length ekey = 32 ->
    Forall (fun x => in_range (projT1 x) (projT2 x)) l ->
    readable_sequence self_delimiting raw_at_end_only (map ptype l) = true ->
    packet_new (py_ipv8_header (c_mid c) mt) = Ok p0 ->
    add_all p0 (existT tval TBinMember (BinMember pk ekey) :: l) = Ok unsigned ->
    packet_sign unsigned k = Ok signed ->
    (* the network: what [send] handed to the operating system was received, among any other datagrams *)
    (forall x, In x (fst (network_send os dst signed)) -> In (fst x, src) (received q0 tr)) ->
    length (packet_raw signed) <= nc_buffersize cfg ->
    (* the receiving process *)
    run cfg (net_init cfg q0) tr s -> between_datagrams s -> r < nc_receivers cfg ->
    is_registered c cs -> length (c_mid c) = 20 -> deprecated (N_of_byte mt) = false ->
    (forall c', In c' cs -> c_tag c' = c_tag c -> c_mid c' = c_mid c) ->
    exists d d1 d2 d3,
      In (spec_header (c_mid c) mt, d, src) (handler_calls (c_tag c) (effects_behind cs r tr)) /\
      pop_header d = (d1, Ok (spec_header (c_mid c) mt)) /\
      verify_embedded C d1 = (d2, Ok true) /\
      read_all d2 (map ptype l) = (d3, Ok (map transmitted_payload l)).
Proof.
  intros C L k pk ekey mt l p0 unsigned signed os dst src cfg q0 tr s r cs c Hk He Hr S Hp Ha Hs Hnet Hlen R B Hrc Reg Hm D T.
  destruct (p_C31_signed_message_end_to_end C L k pk ekey (c_mid c) mt l p0 unsigned signed Hk He Hm Hr S Hp Ha Hs)
    as (d1 & d2 & d3 & E1 & E2 & E3 & _).
  exists (start_deserialize signed), d1, d2, d3. split; [|auto].
  rewrite (p_C70_community_gets_exactly_its_messages cfg q0 tr s r cs c R B Hrc Reg Hm T).
  assert (Hin : In (packet_bytes signed, src) (received q0 tr)).
  { apply (Hnet (packet_bytes signed, dst)). rewrite p_C63_send_is_exact. now left. }
  (* the signed packet starts with the header *)
  assert (Hl : exists rest, packet_bytes signed = header_layout (c_mid c) mt ++ rest).
  { unfold py_ipv8_header in Hp. rewrite packet_new_complete, byte_of_N_of_byte in Hp. injection Hp as <-.
    destruct (add_all_prefix _ _ _ Ha) as [m1 E4]. rewrite (sign_ok C L) in Hs. injection Hs as <-.
    cbn [packet_bytes] in *. rewrite E4. rewrite <- app_assoc. eauto. }
  destruct Hl as [rest El].
  assert (Ep : packet_of cfg (packet_bytes signed, src) = (packet_bytes signed, src)).
  { unfold packet_of. cbn [fst snd]. now rewrite firstn_all2. }
  replace (spec_header (c_mid c) mt, start_deserialize signed, src) with (as_handled (packet_bytes signed, src)).
  - apply in_map. apply filter_In. split.
    + rewrite <- Ep. now apply in_map.
    + cbn [fst]. rewrite El, is_message_layout, bytes_eqb_refl, D by assumption. reflexivity.
  - unfold as_handled. cbn [fst snd]. rewrite El. destruct (header_layout_fields (c_mid c) mt rest Hm) as [-> ->].
    rewrite <- El. now destruct signed.
Qed.

Lemma forward_handled cs x tag h d a : In (Handled tag h d a) (forward cs x) ->
  d = {| pntr := Packet (fst x); index := 0 |} /\
  exists mt rest, fst x = header_layout (firstn 20 (skipn 2 (fst x))) mt ++ rest /\
    h = spec_header (firstn 20 (skipn 2 (fst x))) mt /\ length (firstn 20 (skipn 2 (fst x))) = 20.
Proof.
  destruct x as [pkt src]. unfold forward. cbn [fst snd]. intros H.
  destruct (p_C42_routing _ _ _ _ _ _ _ H) as (_ & Lp & H0 & H1 & _).
  destruct (message_split pkt Lp H0 H1) as (m & mt & rest & Lm & ->).
  destruct (header_layout_fields m mt rest Lm) as [F1 F2]. rewrite F1.
  unfold forward_message, start_deserialize in H.
  rewrite peek_header_ok in H by (lia || now apply header_prefix_layout). cbn [Nat.add] in H. rewrite F1, F2 in H.
  cbn [spec_header h_mid_hash] in H. destruct (map_get m _) as [c|]; [|destruct H].
  assert (K : In (Handled tag h d a) (fst (receive c (spec_header m mt) (Deserializer (Packet (header_layout m mt ++ rest)) 0) src)) ->
              h = spec_header m mt /\ d = Deserializer (Packet (header_layout m mt ++ rest)) 0).
  { unfold receive, warn_deprecated, on_receive. cbn [spec_header h_message_type]. clear.
    intros H. repeat match type of H with context [match ?x with _ => _ end] => is_var x; destruct x
      | context [match ?x with _ => _ end] => destruct x end; cbn in H; destruct H as [H|[]]; try discriminate H; injection H; auto. }
  destruct (K H) as [-> ->]. split; [reflexivity|]. exists mt, rest. auto.
Qed.

(** C72. Authenticity, against an arbitrary network. Suppose a handler pops the header, verifies and gets true, where the
    authentication payload carries the key [pk], and no packet that ever arrived is a forgery: if it is a message with a valid
    signature under [pk], the message is in [honest] (what the owner of [pk] signed). Then the packet is one the owner signed, followed by a signature; what is left in the
    deserializer, after the authentication payload, is exactly that; and its header - community id and message type - is the
    one the handler was given: the owner signed it for this community. So a message signed for one community or
    message type cannot be replayed as another. *)
Lemma p_C72_authenticated_messages_were_signed_for_this_community :
  forall (C : ed25519) (pk : list byte) (honest : list byte -> Prop)
         (cs : list community) (r : nat) (tr : list label) (c : community)
         (h : header) (d d1 d1' d2 : deserializer) (src : address) (hr : outcome header) (auth : bin_member),
    (forall msg sig from, In (msg ++ sig, from) (calls r tr) -> length sig = 64 -> ring_verify C pk msg sig = true -> honest msg) ->
    (forall c', In c' cs -> c_tag c' = c_tag c -> c_mid c' = c_mid c) ->
    In (h, d, src) (handler_calls (c_tag c) (effects_behind cs r tr)) ->
    pop_header d = (d1, hr) ->
    next_payload TBinMember d1 = (d1', Ok auth) -> bm_public_key_bin auth = pk ->
    verify_embedded C d1 = (d2, Ok true) ->
    exists msg sig mt,
      honest msg /\ length sig = 64 /\ pntr d = Packet (msg ++ sig) /\
      d2 = {| pntr := Packet msg; index := 99 |} /\
      firstn 23 msg = header_layout (c_mid c) mt /\ h = spec_header (c_mid c) mt.
Proof.
  intros C pk honest cs r tr c h d d1 d1' d2 src hr auth Hh T Hin Hpop Ha Hpk Hv.
  apply handler_calls_in in Hin. unfold effects_behind in Hin. apply in_flat_map in Hin as ([pkt from] & Hcall & Hin).
  destruct (forward_handled _ _ _ _ _ _ Hin) as (-> & mt & rest & E & -> & L20). cbn [fst] in *.
  destruct (p_C42_routing _ _ _ _ _ _ _ Hin) as (_ & Lp & _ & _ & c' & Hc & Tg & Em).
  apply T in Tg; [|exact Hc]. rewrite Tg in Em. cbn [fst] in Em. rewrite <- Em in *.
  unfold pop_header in Hpop. rewrite E in Hpop at 1. rewrite peek_header_ok in Hpop by (lia || now apply header_prefix_layout).
  injection Hpop as <- <-. cbn [spec_header h_size Nat.add] in *.
  assert (Hi : 23 <= length pkt) by exact Lp.
  assert (d1' = {| pntr := Packet pkt; index := 23 + 76 |}) as ->.
  { destruct (auth_cases pkt 23 Hi) as [[_ F]|(_ & _ & F)]; rewrite F in Ha; [discriminate|].
    destruct (auth_of_contents _); try discriminate. now injection Ha as <- <-. }
  destruct (verify_embedded_auth C pkt 23 auth Hi Ha) as [Hlen V]. rewrite V in Hv. injection Hv as <- Hv.
  rewrite Hpk in Hv. exists (firstn (length pkt - 64) pkt), (skipn (length pkt - 64) pkt), mt.
  assert (L64 : length (skipn (length pkt - 64) pkt) = 64) by (rewrite skipn_length; lia).
  split; [apply (Hh _ (skipn (length pkt - 64) pkt) from); [now rewrite firstn_skipn|exact L64|exact Hv]|]. split; [exact L64|]. split; [now rewrite firstn_skipn|]. split; [reflexivity|].
  split; [|reflexivity].
  rewrite firstn_firstn. replace (Nat.min 23 (length pkt - 64)) with 23 by lia.
  rewrite E. apply firstn_app_exact. unfold header_layout. rewrite !app_length, L20. reflexivity.
Qed.

(** any sequence of datagrams can be received: there is an execution that delivers it and ends blocked in poll *)
Lemma deliverable cfg : forall ds,
  exists tr s, run cfg (net_init cfg []) tr s /\ idle s /\ arrivals tr = ds /\ spaced [] tr /\
    Forall (fun l => ~ is_failure l) tr /\
    forall r, r < nc_receivers cfg -> calls r tr = map (packet_of cfg) ds.
Proof.
  induction ds as [|d ds IH] using rev_ind.
  - exists [], (net_init cfg []). repeat split; auto; try constructor. intros a d b E. destruct a; discriminate.
  - destruct IH as (tr & s & R & [I1 I2] & A & S & F & _).
    assert (NS : ~ stopped s). { intros [x Ex]. congruence. }
    pose proof (spaced_edge _ _ _ _ R S NS) as SE. unfold edge_count in SE. rewrite I2 in SE. cbn in SE.
    pose proof (run_snoc _ _ _ _ _ _ R (step_arrive cfg s d)) as R1.
    assert (S1 : spaced [] (tr ++ [LArrive d])).
    { destruct S as [S0 S]. split; [exact S0|]. intros a d' b E.
      destruct b as [|x b _] using rev_ind.
      - apply app_inj_tail in E as [-> E]. cbn. lia.
      - rewrite app_comm_cons, app_assoc in E. apply app_inj_tail in E as [-> _]. now apply (S a d' b). }
    assert (F1 : Forall (fun l => ~ is_failure l) (tr ++ [LArrive d])).
    { apply Forall_app. split; [exact F|]. repeat constructor. intros []. }
    destruct (p_C62_always_back_to_poll _ _ _ _ R1 F1) as (tr' & s' & R2 & I & A2 & F2 & D).
    exists ((tr ++ [LArrive d]) ++ tr'), s'. split; [exact R2|]. split; [exact I|].
    split; [rewrite !arrivals_app, A, A2, app_nil_r; reflexivity|].
    split; [|split].
    + destruct S1 as [S0 S1]. split; [exact S0|]. intros a d' b E.
      assert (exists b1, b = b1 ++ tr' /\ tr ++ [LArrive d] = a ++ LArrive d' :: b1) as (b1 & _ & E1).
      { clear -E A2. revert b E A2. induction tr' as [|x tr' IH] using rev_ind; intros b E A2.
        - exists b. rewrite app_nil_r in *. auto.
        - rewrite arrivals_app in A2. apply app_eq_nil in A2 as [A2 A3].
          destruct b as [|y b _] using rev_ind.
          + rewrite app_assoc in E. apply app_inj_tail in E as [_ ->]. discriminate.
          + rewrite app_comm_cons, !app_assoc in E. apply app_inj_tail in E as [E ->].
            destruct (IH _ E A2) as (b1 & -> & E1). exists b1. now rewrite app_assoc. }
      now apply (S1 a d' b1).
    + apply Forall_app. split; assumption.
    + intros r Hr. rewrite (D S1 r Hr). cbn. rewrite arrivals_app, A. reflexivity.
Qed.

(** C73, refuted: "a message is handled at most once". The library keeps no memory of messages: whoever can
    send datagrams can make the handler of a community run on the same message - signed or not - any number of times. *)
Lemma p_C73_no_replay_protection_refuted :
  forall (n : nat) (pkt : list byte) (src : address) (cfg : net_config) (r : nat) (cs : list community) (c : community),
    r < nc_receivers cfg -> length pkt <= nc_buffersize cfg ->
    is_registered c cs -> length (c_mid c) = 20 ->
    (forall c', In c' cs -> c_tag c' = c_tag c -> c_mid c' = c_mid c) ->
    is_message_for (c_mid c) pkt = true ->
    exists tr s, run cfg (net_init cfg []) tr s /\ idle s /\ arrivals tr = repeat (pkt, src) n /\
      handler_calls (c_tag c) (effects_behind cs r tr) = repeat (as_handled (pkt, src)) n.
Proof.
  intros n pkt src cfg r cs c Hr Hl Reg L T M.
  destruct (deliverable cfg (repeat (pkt, src) n)) as (tr & s & R & I & A & _ & _ & D).
  exists tr, s. split; [exact R|]. split; [exact I|]. split; [exact A|].
  unfold effects_behind. rewrite (forward_many cs c Reg L T), (D r Hr). clear -Hl M.
  assert (E : packet_of cfg (pkt, src) = (pkt, src)) by (unfold packet_of; cbn; now rewrite firstn_all2 by exact Hl).
  induction n as [|n IH]; [reflexivity|]. cbn [repeat map filter]. rewrite E. cbn [fst]. rewrite M. cbn [map].
  f_equal. exact IH.
Qed.
(** C73, what does hold: the handler runs exactly as often on a message as the listener received it. *)
Lemma p_C73_handled_as_often_as_received :
  forall (cfg : net_config) (q0 : list datagram) (tr : list label) (s : net_state) (r : nat)
         (cs : list community) (c : community) (pkt : list byte),
    run cfg (net_init cfg q0) tr s -> between_datagrams s -> r < nc_receivers cfg ->
    is_registered c cs -> length (c_mid c) = 20 ->
    (forall c', In c' cs -> c_tag c' = c_tag c -> c_mid c' = c_mid c) ->
    is_message_for (c_mid c) pkt = true ->
    (forall x, In x (received q0 tr) -> length (fst x) <= nc_buffersize cfg) ->
    length (filter (fun call => bytes_eqb (packet_raw (pntr (snd (fst call)))) pkt)
                   (handler_calls (c_tag c) (effects_behind cs r tr))) =
    length (filter (fun x => bytes_eqb (fst x) pkt) (received q0 tr)).
Proof.
  intros cfg q0 tr s r cs c pkt R B Hr Reg L T M F.
  rewrite (p_C70_community_gets_exactly_its_messages cfg q0 tr s r cs c R B Hr Reg L T). clear -F M.
  induction (received q0 tr) as [|[p a] l IH]; [reflexivity|].
  assert (IH' := IH (fun x H => F x (or_intror H))). clear IH.
  assert (Ep : packet_of cfg (p, a) = (p, a)).
  { unfold packet_of. cbn. now rewrite firstn_all2 by (apply (F (p, a)); now left). }
  cbn [map filter]. rewrite Ep. cbn [fst]. destruct (bytes_eqb p pkt) eqn:E.
  - apply bytes_eqb_eq in E. subst p. rewrite M. cbn [map filter]. unfold as_handled at 1, packet_raw at 1. cbn [fst snd pntr packet_bytes].
    rewrite bytes_eqb_refl. cbn [length]. f_equal. exact IH'.
  - destruct (is_message_for (c_mid c) p); [|exact IH'].
    cbn [map filter]. unfold as_handled at 1, packet_raw at 1. cbn [fst snd pntr packet_bytes]. rewrite E. exact IH'.
Qed.

(** ** Concrete cases *)
Definition e2e_mid : list byte := repeat x2a 20.
Definition e2e_community (tag : nat) (m : list byte) : community :=
  {| c_tag := tag; c_mid := m; c_on_receive := fun _ _ _ => Ok tt |}.
Definition e2e_registry : list community := [e2e_community 1 e2e_mid; e2e_community 2 (repeat x2b 20)].
Definition e2e_cfg : net_config := {| nc_buffersize := 2048; nc_has_timeout := true; nc_receivers := 2 |}.
Definition e2e_src : address := V4 x7f x00 x00 x01 8090%N.

Lemma e2e_packets :
  exists p0 unsigned signed,
    packet_new (py_ipv8_header e2e_mid x01) = Ok p0 /\
    add_all p0 (existT tval TBinMember (BinMember (repeat x05 32) (repeat x06 32)) :: example_payloads) = Ok unsigned /\
    packet_sign (C := toy) unsigned (repeat x05 32) = Ok signed /\ public_key (C := toy) (repeat x05 32) = Ok (repeat x05 32) /\
    length (packet_raw signed) = 195 /\ is_message_for e2e_mid (packet_raw signed) = true.
Proof. do 3 eexists. repeat (split; [vm_compute; reflexivity|]). vm_compute. reflexivity. Qed.
(** the hypotheses of C70, C71 and C73 are met: a packet signed by a toy scheme, received by a listener with two receivers, for
    the first of two communities *)
Example ex_C71_hypotheses :
  exists p0 unsigned signed tr s,
    packet_new (py_ipv8_header e2e_mid x01) = Ok p0 /\
    add_all p0 (existT tval TBinMember (BinMember (repeat x05 32) (repeat x06 32)) :: example_payloads) = Ok unsigned /\
    packet_sign (C := toy) unsigned (repeat x05 32) = Ok signed /\ public_key (C := toy) (repeat x05 32) = Ok (repeat x05 32) /\
    length (packet_raw signed) = 195 /\ is_message_for e2e_mid (packet_raw signed) = true /\
    run e2e_cfg (net_init e2e_cfg []) tr s /\ between_datagrams s /\ received [] tr = [(packet_raw signed, e2e_src)] /\
    is_registered (e2e_community 1 e2e_mid) e2e_registry /\ deprecated (N_of_byte x01) = false.
Proof.
  destruct e2e_packets as (p0 & un & sg & H1 & H2 & H3 & H4 & H5 & H6).
  destruct (deliverable e2e_cfg [(packet_raw sg, e2e_src)]) as (tr & s & R & I & A & _ & _ & D).
  exists p0, un, sg, tr, s. repeat (split; [assumption|]).
  assert (B : between_datagrams s). { unfold between_datagrams. destruct I as [-> _]. exact Logic.I. }
  split; [exact B|]. split; [|split; [|reflexivity]].
  - destruct (p_C48_exactly_once_in_order _ _ _ _ 0 R) as [E _].
    destruct (E ltac:(cbn; lia)) as (m & E1 & _ & E2). rewrite (E2 B), app_nil_r, (D 0) in E1 by (cbn; lia).
    unfold received in *. rewrite A in *. cbn [app] in *. destruct (recvs tr); [discriminate|]. cbn. now rewrite firstn_nil.
  - exists [], [e2e_community 2 (repeat x2b 20)]. split; [reflexivity|]. repeat constructor. discriminate.
Qed.
Definition e2e_unsigned : packet := Eval vm_compute in
  match (let* p0 := packet_new (py_ipv8_header e2e_mid x01) in
         add_all p0 (existT tval TBinMember (BinMember (repeat x05 32) (repeat x06 32)) :: example_payloads)) with
  | Ok q => q
  | _ => Packet []
  end.
Definition e2e_signed : packet := Eval vm_compute in
  match packet_sign (C := toy) e2e_unsigned (repeat x05 32) with Ok q => q | _ => Packet [] end.
(** the hypotheses of C72 are met: the handler of community 1 runs on that packet, and verification succeeds; with the toy
    scheme the messages that verify are exactly those signed *)
Example ex_C72_hypotheses :
  exists unsigned signed d1 d1' d2 hr auth,
    let pk := repeat x05 32 in
    let d := {| pntr := signed; index := 0 |} in
    let tr := [LCall 0 (packet_raw signed) e2e_src] in
    In (spec_header e2e_mid x01, d, e2e_src) (handler_calls 1 (effects_behind e2e_registry 0 tr)) /\
    pop_header d = (d1, hr) /\ next_payload TBinMember d1 = (d1', Ok auth) /\ bm_public_key_bin auth = pk /\
    verify_embedded toy d1 = (d2, Ok true) /\
    packet_sign (C := toy) unsigned pk = Ok signed /\ packet_raw (pntr d2) = packet_raw unsigned.
Proof.
  exists e2e_unsigned, e2e_signed.
  do 5 eexists. cbn zeta. split; [vm_compute; now left|].
  repeat (split; [vm_compute; reflexivity|]). vm_compute; reflexivity.
Qed.
