(** * OverlayProofs: communities on several hosts (World.v with the forwarding receiver of EndToEndSpec.v) *)
From Coq Require Import Strings.String.
From Verif Require Import Base Serde Codec Universe Spec SerdeFacts CodecFacts UniverseFacts Packet Client PacketFacts HeaderProofs
  CodecProofs CursorProofs CryptoProofs Community CommunitySpec CommunityProofs Network NetSpec NetworkProofs EndToEndSpec EndToEndProofs
  Ipv8 Ipv8Spec Ipv8Proofs World WorldSpec WorldProofs.
Open Scope nat_scope.

Lemma in_trace_at k l tr : In l (trace_at k tr) -> (forall d, l <> LArrive d) -> In (WListener k l) tr.
Proof.
  intros H N. induction tr as [|e tr IH]; [destruct H|]. destruct e; cbn [trace_at] in H; try (right; now apply IH).
  - destruct (k =? k0); [destruct H as [H|H]|]; [now elim (N _ (eq_sym H))|right; now apply IH..].
  - destruct (Nat.eqb_spec k k0) as [->|]; [destruct H as [->|H]|]; [now left|right; now apply IH..].
Qed.
Lemma in_calls r l x : In x (calls r l) -> In (LCall r (fst x) (snd x)) l.
Proof.
  induction l as [|y l IH]; [intros []|]. destruct y; cbn [calls]; intros H; try (right; now apply IH).
  destruct (Nat.eqb_spec r r0) as [->|]; [destruct H as [<-|H]|]; [now left|right; now apply IH..].
Qed.

Lemma emitted_mono m a b : In m (emitted a) -> In m (emitted (a ++ b)).
Proof. rewrite emitted_app. intros H. apply in_or_app. now left. Qed.

(** every call of a receiver anywhere comes from a datagram *)
Lemma call_origin T tr w k r x : wrun T world_init tr w -> In x (calls r (trace_at k tr)) ->
  exists m cfg, In m (emitted tr) /\ In (WDeliver k m) tr /\ In (WStart k cfg) tr /\ m_from m = snd x /\
    fst x = firstn (cf_buffersize cfg) (m_data m).
Proof.
  intros R H. apply in_calls in H. apply in_trace_at in H; [|discriminate]. apply in_split in H as (a & b & ->).
  destruct (p_C86_nothing_invented _ _ _ _ _ _ _ _ R) as (m & cfg & _ & _ & _ & I1 & I2 & E1 & E2 & _ & I3 & _).
  exists m, cfg. split; [now apply emitted_mono|]. repeat split; auto; apply in_or_app; now left.
Qed.

(** C91. What a community's handler on some host has been called with is determined by what the network delivered to its
    listener's socket: exactly the messages for it (after truncation), in order, each once; at any moment at most the one being
    dispatched is missing. *)
Lemma p_C91_handler_gets_what_was_delivered :
  forall (T : topology) (tr : list event) (w : world) (k : nat) (cfg : config) (r : nat) (cs : list community) (c : community),
    wrun T world_init tr w -> In (WStart k cfg) tr -> ~ In (WClose k) tr -> r < added k tr ->
    is_registered c cs -> length (c_mid c) = 20 ->
    (forall c', In c' cs -> c_tag c' = c_tag c -> c_mid c' = c_mid c) ->
    let got := map (fun d => (firstn (cf_buffersize cfg) (fst d), snd d)) (firstn (recvs (trace_at k tr)) (delivered k tr)) in
    exists missing, length missing <= 1 /\
      map as_handled (filter (fun x => is_message_for (c_mid c) (fst x)) got) =
      handler_calls (c_tag c) (effects_behind cs r (trace_at k tr)) ++ missing.
Proof.
  intros T tr w k cfg r cs c R I NC Hr Reg L Tg got.
  destruct (p_C85_each_listener_alone _ _ _ _ _ _ R I NC (configured_listen_config _ _)) as (A & s & Rs & _).
  destruct (p_C70_prefix_at_every_moment _ [] _ _ r cs c Rs Hr Reg L Tg) as (missing & Lm & E).
  exists missing. split; [exact Lm|]. rewrite <- E. unfold received. cbn [app]. rewrite A. reflexivity.
Qed.

(** C91. A handler never runs without cause: on every host and at every moment, each of its calls was made for a datagram
    somebody put on the network before, delivered to this listener, which starts with 00 02, the community's own id and a message type
    that is not deprecated; the handler was given that header, those bytes (cut to the buffer) from the start, and the
    datagram's source address. *)
Lemma p_C91_handlers_only_run_on_sent_messages :
  forall (T : topology) (tr : list event) (w : world) (k r : nat) (cs : list community) (c : community)
         (h : header) (d : deserializer) (src : address),
    wrun T world_init tr w ->
    is_registered c cs -> length (c_mid c) = 20 ->
    (forall c', In c' cs -> c_tag c' = c_tag c -> c_mid c' = c_mid c) ->
    In (h, d, src) (handler_calls (c_tag c) (effects_behind cs r (trace_at k tr))) ->
    exists (m : message) (cfg : config) (mt : byte),
      In m (emitted tr) /\ In (WDeliver k m) tr /\ In (WStart k cfg) tr /\
      firstn 23 (m_data m) = header_layout (c_mid c) mt /\ deprecated (N_of_byte mt) = false /\
      h = spec_header (c_mid c) mt /\ d = {| pntr := Packet (firstn (cf_buffersize cfg) (m_data m)); index := 0 |} /\
      src = m_from m.
Proof.
  intros T tr w k r cs c h d src R Reg L Tg H. unfold effects_behind in H. rewrite (forward_many cs c Reg L Tg) in H.
  apply in_map_iff in H as ([pkt from] & E & H). apply filter_In in H as [H M]. cbn [fst] in M.
  destruct (call_origin _ _ _ _ _ _ R H) as (m & cfg & I1 & I2 & I3 & E1 & E2). cbn [fst snd] in E1, E2.
  destruct (is_message_prefix _ _ L M) as (Lp & H0 & H1).
  destruct (message_split pkt Lp H0 H1) as (mid & mt & rest & Lm & Ep). rewrite Ep in M.
  rewrite is_message_layout in M by assumption. apply andb_true_iff in M as [Em D].
  apply bytes_eqb_eq in Em. apply negb_true_iff in D. subst mid.
  exists m, cfg, mt. split; [exact I1|]. split; [exact I2|]. split; [exact I3|].
  assert (F23 : firstn 23 (m_data m) = header_layout (c_mid c) mt).
  { replace (firstn 23 (m_data m)) with (firstn 23 pkt).
    - rewrite Ep. apply firstn_app_exact. unfold header_layout. rewrite !app_length, L. reflexivity.
    - rewrite E2, firstn_firstn. f_equal. rewrite E2, firstn_length in Lp. lia. }
  split; [exact F23|]. split; [exact D|]. unfold as_handled in E. cbn [fst snd] in E.
  rewrite Ep in E at 1 2. destruct (header_layout_fields (c_mid c) mt rest L) as [X Y]. rewrite X, Y in E.
  injection E as <- <- <-. rewrite E1, E2. auto.
Qed.

(** C92. A signed message, from one host's API to another's: a peer builds a packet for community [c] - header,
    authentication payload with its key, any payloads - signs it and sends it with a [NetworkSender]; the network delivers it. Whatever
    else happens on the network and whoever else sends: as soon as the receiver behind which [c] is registered has been
    called for everything delivered to its socket, the handler of [c] has been called with the address the datagram came from and a
    deserializer from which it can pop the header, verify (true), and read back all the payloads in order. *)
Lemma p_C92_signed_message_crosses_the_network :
  forall (C : ed25519), ed25519_laws C ->
  forall (key : keypair C) (pk ekey : list byte) (mt : byte) (l : list payload) (p0 unsigned signed : packet)
         (T : topology) (tr : list event) (w : world) (i k : nat) (m : message) (cfg : config) (r : nat)
         (cs : list community) (c : community),
    (* the sender *)
    public_key key = Ok pk -> length ekey = 32 ->
    Forall (fun x => in_range (projT1 x) (projT2 x)) l ->
    readable_sequence self_delimiting raw_at_end_only (map ptype l) = true ->
    packet_new (py_ipv8_header (c_mid c) mt) = Ok p0 ->
    add_all p0 (existT tval TBinMember (BinMember pk ekey) :: l) = Ok unsigned ->
    packet_sign unsigned key = Ok signed ->
    (* the network *)
    wrun T world_init tr w -> In (WSend i signed m) tr -> In (WDeliver k m) tr ->
    In (WStart k cfg) tr -> ~ In (WClose k) tr -> r < added k tr ->
    length (packet_raw signed) <= cf_buffersize cfg ->
    length (calls r (trace_at k tr)) = length (delivered k tr) ->
    (* the receiving process *)
    is_registered c cs -> length (c_mid c) = 20 -> deprecated (N_of_byte mt) = false ->
    (forall c', In c' cs -> c_tag c' = c_tag c -> c_mid c' = c_mid c) ->
    exists d d1 d2 d3,
      In (spec_header (c_mid c) mt, d, m_from m) (handler_calls (c_tag c) (effects_behind cs r (trace_at k tr))) /\
      pop_header d = (d1, Ok (spec_header (c_mid c) mt)) /\
      verify_embedded C d1 = (d2, Ok true) /\
      read_all d2 (map ptype l) = (d3, Ok (map transmitted_payload l)).
Proof.
  intros C Lw key pk ekey mt l p0 unsigned signed T tr w i k m cfg r cs c Hk He Hr S Hp Ha Hs R IS ID I NC Hrc Hlen Hall Reg Hm D Tg.
  destruct (p_C31_signed_message_end_to_end C Lw key pk ekey (c_mid c) mt l p0 unsigned signed Hk He Hm Hr S Hp Ha Hs)
    as (d1 & d2 & d3 & E1 & E2 & E3 & _).
  exists (start_deserialize signed), d1, d2, d3. split; [|auto].
  assert (Dm : m_data m = packet_bytes signed).
  { apply in_split in IS as (a & b & ->). destruct (send_moment _ _ _ _ _ _ _ R) as (_ & _ & _ & _ & _ & _ & _ & X & _). exact X. }
  destruct (p_C85_each_listener_alone _ _ _ _ _ _ R I NC (configured_listen_config _ _)) as (A & s & Rs & _). cbn zeta in *.
  set (cc := listen_config cfg (added k tr)) in *.
  assert (Ec : calls r (trace_at k tr) = map (packet_of cc) (delivered k tr)).
  { destruct (p_C48_exactly_once_in_order _ _ _ _ r Rs) as [X _]. destruct (X Hrc) as (missing & X1 & _).
    assert (Lx := f_equal (@length _) X1). unfold received in X1, Lx. cbn [app] in X1, Lx. rewrite A in X1, Lx.
    rewrite app_length, map_length, firstn_length, Hall in Lx.
    assert (missing = []) as -> by (destruct missing; [reflexivity|cbn in Lx; lia]).
    rewrite app_nil_r in X1. rewrite <- X1. f_equal. apply firstn_all2. cbn in Lx. lia. }
  unfold effects_behind. rewrite (forward_many cs c Reg Hm Tg), Ec.
  assert (Hin : In (packet_bytes signed, m_from m) (delivered k tr)).
  { replace (packet_bytes signed, m_from m) with (datagram_of m) by (unfold datagram_of; congruence).
    clear -ID. induction tr as [|e tr IH]; [destruct ID|]. destruct ID as [->|ID].
    - cbn. rewrite Nat.eqb_refl. now left.
    - destruct e; cbn; try (now apply IH). destruct (k =? k0); [right|]; now apply IH. }
  assert (Hl : exists rest, packet_bytes signed = header_layout (c_mid c) mt ++ rest).
  { unfold py_ipv8_header in Hp. rewrite packet_new_complete, byte_of_N_of_byte in Hp. injection Hp as <-.
    destruct (add_all_prefix _ _ _ Ha) as [m1 E4]. rewrite (sign_ok C Lw) in Hs. injection Hs as <-.
    cbn [packet_bytes] in *. rewrite E4. rewrite <- app_assoc. eauto. }
  destruct Hl as [rest El].
  assert (Ep : packet_of cc (packet_bytes signed, m_from m) = (packet_bytes signed, m_from m)).
  { unfold packet_of. cbn [fst snd cc listen_config nc_buffersize]. now rewrite firstn_all2. }
  replace (spec_header (c_mid c) mt, start_deserialize signed, m_from m) with (as_handled (packet_bytes signed, m_from m)).
  - apply in_map. apply filter_In. split.
    + rewrite <- Ep. now apply in_map.
    + cbn [fst]. rewrite El, is_message_layout, bytes_eqb_refl, D by assumption. reflexivity.
  - unfold as_handled. cbn [fst snd]. rewrite El. destruct (header_layout_fields (c_mid c) mt rest Hm) as [-> ->].
    rewrite <- El. now destruct signed.
Qed.

(** C93. Authenticity against everybody on the network. Call a datagram a forgery if it, or a beginning of it (packets longer than the
    buffer are cut), is a message with a valid signature under [pk] where the message is not in [honest], what the owner of
    [pk] signed. Suppose no forgery was ever sent, by anybody. If a handler on any host pops the header, verifies and gets true for a
    packet whose authentication payload carries [pk], then the owner of [pk] signed exactly what is left in the deserializer, and
    signed it for this community and this message type. *)
Lemma p_C93_network_wide_authenticity :
  forall (C : ed25519) (pk : list byte) (honest : list byte -> Prop)
         (T : topology) (tr : list event) (w : world) (k r : nat) (cs : list community) (c : community)
         (h : header) (d d1 d1' d2 : deserializer) (src : address) (hr : outcome header) (auth : bin_member),
    wrun T world_init tr w ->
    (forall m n msg sig, In m (emitted tr) -> firstn n (m_data m) = msg ++ sig -> length sig = 64 ->
       ring_verify C pk msg sig = true -> honest msg) ->
    (forall c', In c' cs -> c_tag c' = c_tag c -> c_mid c' = c_mid c) ->
    In (h, d, src) (handler_calls (c_tag c) (effects_behind cs r (trace_at k tr))) ->
    pop_header d = (d1, hr) ->
    next_payload TBinMember d1 = (d1', Ok auth) -> bm_public_key_bin auth = pk ->
    verify_embedded C d1 = (d2, Ok true) ->
    exists msg sig mt,
      honest msg /\ length sig = 64 /\ pntr d = Packet (msg ++ sig) /\
      d2 = {| pntr := Packet msg; index := 99 |} /\
      firstn 23 msg = header_layout (c_mid c) mt /\ h = spec_header (c_mid c) mt.
Proof.
  intros C pk honest T tr w k r cs c h d d1 d1' d2 src hr auth R Hh Tg H Hp Ha Hk Hv.
  apply (p_C72_authenticated_messages_were_signed_for_this_community C pk honest cs r (trace_at k tr) c h d d1 d1' d2 src hr auth); auto.
  intros msg sig from Hc L V. destruct (call_origin _ _ _ _ _ _ R Hc) as (m & cfg & I & _ & _ & _ & E). cbn [fst] in E.
  exact (Hh m (cf_buffersize cfg) msg sig I (eq_sym E) L V).
Qed.

(** C94. Nothing in the library keeps a message from its handler: whenever a sender has a message for community [c] and the
    address of a listener that is waiting with nothing unread, and the network brings it there, the execution can go on
    without failure so that the handler of [c] runs once, on exactly this message, in every receiver that forwards to a registry. *)
Lemma p_C94_messages_can_reach_their_handler :
  forall (T : topology) (tr : list event) (w : world) (i k h : nat) (p : packet) (m : message) (x y : address)
         (q : list datagram) (nc : net_config) (s : net_state) (cs : list community) (c : community),
    wrun T world_init tr w ->
    nth_error (w_sockets w) i = Some {| sk_host := m_origin m; sk_address := x; sk_end := Sending q |} ->
    m_data m = packet_bytes p -> addr_port (m_from m) = addr_port x ->
    (addr_ip (m_from m) = addr_ip x \/ Forall (eq x00) (addr_ip x)) ->
    source_for T (m_origin m) (addr_ip (m_to m)) (addr_ip (m_from m)) ->
    nth_error (w_sockets w) k = Some {| sk_host := h; sk_address := y; sk_end := Listening nc s |} ->
    idle s -> ns_queue s = [] ->
    route T (m_origin m) (addr_ip (m_to m)) = Some h -> addr_port (m_to m) = addr_port y ->
    (addr_ip (m_to m) = addr_ip y \/ Forall (eq x00) (addr_ip y)) ->
    length (packet_bytes p) <= nc_buffersize nc ->
    is_registered c cs -> length (c_mid c) = 20 ->
    (forall c', In c' cs -> c_tag c' = c_tag c -> c_mid c' = c_mid c) ->
    is_message_for (c_mid c) (packet_raw p) = true ->
    exists (steps : list label) (w' : world),
      wrun T w (WSend i p m :: WDeliver k m :: map (WListener k) steps) w' /\
      Forall (fun l => ~ is_failure l) steps /\
      forall r, r < nc_receivers nc ->
        handler_calls (c_tag c) (effects_behind cs r steps) = [as_handled (packet_raw p, m_from m)].
Proof.
  intros T tr w i k h p m x y q nc s cs c R Hi D Po Ip Sf Hk Id Q Rt Tp Ti Le Reg L Tg M.
  destruct (p_C90_packets_can_arrive T tr w i k h p m x y q nc s R Hi D Po Ip Sf Hk Id Q Rt Tp Ti Le) as (steps & w' & Rw & F & Hc).
  exists steps, w'. split; [exact Rw|]. split; [exact F|]. intros r Hr.
  unfold effects_behind. rewrite (Hc r Hr), (forward_many cs c Reg L Tg). cbn [filter fst]. unfold packet_raw in M. rewrite M. reflexivity.
Qed.

(** ** A concrete case: the signed packet of ex_C71, from host 0 to host 1 *)
Definition overlay_config : config := {|
  cf_queuesize := 100; cf_buffersize := 256; cf_pollinterval := None; cf_threadcount := 0; cf_default_hosts := [];
  cf_sending_address := v4 0 0 0 0 8000; cf_receiving_address := v4 0 0 0 0 9000 |}.
Definition overlay_setup : list event :=
  [WBindSender 0 0 (v4 0 0 0 0 8000) (v4 0 0 0 0 8000); WBindReceiver 1 1 (v4 0 0 0 0 9000) (v4 0 0 0 0 9000);
   WAddReceiver 1; WStart 1 overlay_config].
Definition overlay_message : message := {|
  m_origin := 0; m_from := v4 10 0 0 1 8000; m_to := v4 10 0 0 2 9000; m_data := packet_raw e2e_signed |}.
Lemma overlay_setup_run :
  exists w c s, wrun two_hosts world_init overlay_setup w /\
    nth_error (w_sockets w) 0 = Some {| sk_host := 0; sk_address := v4 0 0 0 0 8000; sk_end := Sending [] |} /\
    nth_error (w_sockets w) 1 = Some {| sk_host := 1; sk_address := v4 0 0 0 0 9000; sk_end := Listening c s |} /\
    idle s /\ ns_queue s = [] /\ c = listen_config overlay_config 1.
Proof.
  do 3 eexists. split.
  - unfold overlay_setup. eapply wrun_cons.
    { apply (wstep_bind_sender two_hosts world_init 0). repeat split; [discriminate|]. intros s []. }
    eapply wrun_cons.
    { match goal with |- wstep _ ?w _ _ => apply (wstep_bind_receiver two_hosts w 1) end. repeat split; [discriminate|]. intros s [<-|[]]. discriminate. }
    eapply wrun_cons; [eapply wstep_add_receiver; reflexivity|].
    eapply wrun_cons; [eapply wstep_start; reflexivity|]. constructor.
  - split; [reflexivity|]. split; [reflexivity|]. split; [split; reflexivity|]. split; reflexivity.
Qed.
Lemma delivered_listener j k l : delivered j (map (WListener k) l) = [].
Proof. induction l; auto. Qed.

(** the hypotheses of C91, C92, C93 and C94 are met: the packet of ex_C71 travels from host 0 to the handler on host 1 *)
Example ex_C92_hypotheses :
  exists steps w,
    let tr := overlay_setup ++ WSend 0 e2e_signed overlay_message :: WDeliver 1 overlay_message :: map (WListener 1) steps in
    wrun two_hosts world_init tr w /\ In (WStart 1 overlay_config) tr /\ ~ In (WClose 1) tr /\ 0 < added 1 tr /\
    length (packet_raw e2e_signed) <= cf_buffersize overlay_config /\
    length (calls 0 (trace_at 1 tr)) = length (delivered 1 tr) /\ delivered 1 tr <> [] /\
    is_registered (e2e_community 1 e2e_mid) e2e_registry /\
    handler_calls 1 (effects_behind e2e_registry 0 (trace_at 1 tr)) =
      [(spec_header e2e_mid x01, {| pntr := e2e_signed; index := 0 |}, v4 10 0 0 1 8000)].
Proof.
  destruct overlay_setup_run as (w0 & c & s & R & Hi & Hk & Id & Q & ->).
  destruct (p_C90_packets_can_arrive two_hosts _ w0 0 1 1 e2e_signed overlay_message (v4 0 0 0 0 8000) (v4 0 0 0 0 9000) [] (listen_config overlay_config 1) s R Hi eq_refl eq_refl) as (steps & w & Rw & _ & Hc);
    try exact Hk; try exact Id; try exact Q; try reflexivity.
  { right. repeat constructor. }
  { left. split; reflexivity. }
  { right. repeat constructor. }
  { cbn. lia. }
  assert (Tr : trace_at 1 (overlay_setup ++ WSend 0 e2e_signed overlay_message :: WDeliver 1 overlay_message :: map (WListener 1) steps)
               = LArrive (packet_raw e2e_signed, v4 10 0 0 1 8000) :: steps).
  { rewrite trace_at_app. cbn [overlay_setup trace_at app Nat.eqb]. now rewrite trace_at_listener. }
  exists steps, w. cbn zeta. rewrite Tr. cbn [calls]. rewrite (Hc 0) by (cbn; lia).
  split; [eapply wrun_app; eassumption|]. split; [cbn; tauto|].
  split. { intros I. apply in_app_or in I as [I|I]; [cbn in I; intuition discriminate|].
    destruct I as [I|[I|I]]; try discriminate. apply in_map_iff in I as (? & I & _). discriminate. }
  split; [rewrite added_app; cbn; lia|]. split; [cbn; lia|].
  split; [rewrite delivered_app; cbn [overlay_setup delivered app Nat.eqb length]; now rewrite delivered_listener|].
  split; [rewrite delivered_app; cbn [overlay_setup delivered app Nat.eqb]; discriminate|].
  split; [exists [], [e2e_community 2 (repeat x2b 20)]; split; [reflexivity|repeat constructor; discriminate]|].
  unfold effects_behind. cbn [calls]. rewrite (Hc 0) by (cbn; lia). vm_compute. reflexivity.
Qed.

Example ex_C91_hypotheses :
  exists tr w h d src,
    wrun two_hosts world_init tr w /\ In (WStart 1 overlay_config) tr /\ ~ In (WClose 1) tr /\ 0 < added 1 tr /\
    is_registered (e2e_community 1 e2e_mid) e2e_registry /\
    In (h, d, src) (handler_calls 1 (effects_behind e2e_registry 0 (trace_at 1 tr))).
Proof.
  destruct ex_C92_hypotheses as (steps & w & R & A & B & D & _ & _ & _ & E & F). do 5 eexists.
  split; [exact R|]. split; [exact A|]. split; [exact B|]. split; [exact D|]. split; [exact E|]. rewrite F. now left.
Qed.

(** C93: in that execution no forgery is sent, with the unsigned packet as the only honest message; and verification succeeds *)
Example ex_C93_hypotheses :
  let honest := fun msg => msg = packet_raw e2e_unsigned in
  (forall m n msg sig, In m [overlay_message] -> firstn n (m_data m) = msg ++ sig -> length sig = 64 ->
     ring_verify toy (repeat x05 32) msg sig = true -> honest msg) /\
  exists d1 d1' d2 auth,
    pop_header {| pntr := e2e_signed; index := 0 |} = (d1, Ok (spec_header e2e_mid x01)) /\
    next_payload TBinMember d1 = (d1', Ok auth) /\ bm_public_key_bin auth = repeat x05 32 /\
    verify_embedded toy d1 = (d2, Ok true).
Proof.
  cbn zeta. split.
  - intros m n msg sig [<-|[]] E L V.
    assert (K : forallb (fun n => let p := firstn n (packet_raw e2e_signed) in let i := length p - 64 in
                  implb (ring_verify toy (repeat x05 32) (firstn i p) (skipn i p)) (bytes_eqb (firstn i p) (packet_raw e2e_unsigned)))
                (seq 0 196) = true) by (vm_compute; reflexivity).
    rewrite forallb_forall in K.
    assert (E' : firstn (Nat.min n 195) (packet_raw e2e_signed) = msg ++ sig).
    { rewrite <- E. cbn [m_data overlay_message]. destruct (Nat.le_gt_cases n 195) as [H|H].
      - now rewrite Nat.min_l.
      - rewrite Nat.min_r by lia. rewrite !firstn_all2 by (cbn; lia). reflexivity. }
    specialize (K (Nat.min n 195)). cbn zeta in K. rewrite E', app_length, L in K.
    replace (length msg + 64 - 64) with (length msg) in K by lia.
    rewrite firstn_app_exact, skipn_app_exact in K by reflexivity. rewrite V in K. cbn [implb] in K.
    apply bytes_eqb_eq. apply K. apply in_seq. lia.
  - do 4 eexists. repeat (split; [vm_compute; reflexivity|]). vm_compute. reflexivity.
Qed.
Example ex_C94_hypotheses :
  exists w c s, wrun two_hosts world_init overlay_setup w /\
    nth_error (w_sockets w) 0 = Some {| sk_host := 0; sk_address := v4 0 0 0 0 8000; sk_end := Sending [] |} /\
    nth_error (w_sockets w) 1 = Some {| sk_host := 1; sk_address := v4 0 0 0 0 9000; sk_end := Listening c s |} /\
    idle s /\ ns_queue s = [] /\ length (packet_raw e2e_signed) <= nc_buffersize c /\
    is_message_for e2e_mid (packet_raw e2e_signed) = true.
Proof.
  destruct overlay_setup_run as (w0 & c & s & R & Hi & Hk & Id & Q & ->). do 3 eexists.
  split; [exact R|]. split; [exact Hi|]. split; [exact Hk|]. split; [exact Id|]. split; [exact Q|]. split; [cbn; lia|]. reflexivity.
Qed.
