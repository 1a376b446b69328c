(** * ReplayProofs: what a signature does not bind (C113) *)
From Coq Require Import Strings.String.
From Verif Require Import Base Serde Codec Universe Spec SerdeFacts CodecFacts UniverseFacts Packet Client PacketFacts HeaderProofs CodecProofs CursorProofs CryptoProofs Community CommunitySpec CommunityProofs Network NetSpec NetworkProofs EndToEndSpec EndToEndProofs LivenessSpec Ipv8 Ipv8Spec Ipv8Proofs World WorldSpec WorldProofs OverlayProofs WorldLiveSpec WorldLiveProofs EdField EdCurve EdSpec Sha512 Sha512Spec Ed25519 Ed25519Proofs Pkcs8 OverlayLiveProofs RealProofs ReplaySpec.
Open Scope nat_scope.

Lemma lift_run_others T w k sk c n tr n' : nth_error (w_sockets w) k = Some sk -> sk_end sk = Listening c n ->
  run c n tr n' -> arrivals tr = [] ->
  exists w', wrun T w (map (WListener k) tr) w' /\ nth_error (w_sockets w') k = Some (with_end sk (Listening c n')) /\
    forall j, j <> k -> nth_error (w_sockets w') j = nth_error (w_sockets w) j.
Proof.
  intros H E R. revert E. induction R as [n|n tr n1 l n2 R IH S]; intros E A.
  - exists w. split; [constructor|]. rewrite H. destruct sk as [h a e]. cbn in E. subst e. split; reflexivity.
  - rewrite arrivals_app in A. apply app_eq_nil in A as [A1 A2]. destruct (IH E A1) as (w1 & R1 & H1 & O1).
    exists (set_end w1 k (with_end sk (Listening c n1)) (Listening c n2)). split; [|split].
    + rewrite map_app. econstructor; [exact R1|]. cbn. econstructor; [exact H1|reflexivity|exact S|].
      intros d ->. discriminate.
    + change (with_end sk (Listening c n2)) with (with_end (with_end sk (Listening c n1)) (Listening c n2)).
      apply set_end_get. exact H1.
    + intros j Hj. rewrite <- (O1 j Hj). cbn. rewrite nth_error_set_nth. apply Nat.eqb_neq in Hj.
      rewrite ?(Nat.eqb_sym k j), Hj. reflexivity.
Qed.

(** One packet, and the listener waits again with nothing unread *)
Lemma one_arrives T w i k h p m y c s :
  can_put T w i p m ->
  nth_error (w_sockets w) k = Some {| sk_host := h; sk_address := y; sk_end := Listening c s |} ->
  idle s -> ns_queue s = [] -> length (ns_buffer s) = nc_buffersize c -> addressed_to T m h y -> length (packet_bytes p) <= nc_buffersize c ->
  exists steps w' s',
    wrun T w (WSend i p m :: WDeliver k m :: map (WListener k) steps) w' /\
    Forall (fun l => ~ is_failure l) steps /\
    (forall r, r < nc_receivers c -> calls r steps = [(packet_bytes p, m_from m)]) /\
    nth_error (w_sockets w') k = Some {| sk_host := h; sk_address := y; sk_end := Listening c s' |} /\
    idle s' /\ ns_queue s' = [] /\ length (ns_buffer s') = nc_buffersize c /\
    forall j, j <> k -> nth_error (w_sockets w') j = nth_error (w_sockets w) j.
Proof.
  intros (x & q & Hi & D & Po & Ip & Sf) Hk Id Q B (Rt & Tp & Ti) Le.
  rewrite <- is_wildcard_spec in Ip, Ti.
  destruct (serve_one c s (datagram_of m) Id Q B) as (steps & s' & Rs & Id' & Q' & B' & A & F & C).
  assert (S1 : wstep T w (WSend i p m) (put w m)).
  { eapply (wstep_send T w i _ q (fun _ _ => Ok 0) 0 p m Hi eq_refl); cbn [sk_host sk_address]; auto.
    rewrite p_C63_send_is_exact, D. reflexivity. }
  set (sk := {| sk_host := h; sk_address := y; sk_end := Listening c s |}) in *.
  assert (S2 : wstep T (put w m) (WDeliver k m) (set_end (put w m) k sk (arrive (sk_end sk) (datagram_of m)))).
  { constructor; [exact Hk| |cbn; apply in_or_app; right; now left|].
    - cbn. destruct Id as [-> _]. reflexivity.
    - repeat split; assumption. }
  destruct (lift_run_others T _ k (with_end sk (arrive (sk_end sk) (datagram_of m))) c _ steps s'
              (set_end_get (put w m) k sk _ Hk) eq_refl Rs A) as (w' & Rw & H' & O).
  exists steps, w', s'. split; [|split; [exact F|split; [|split; [exact H'|split; [exact Id'|split; [exact Q'|split; [exact B'|]]]]]]].
  - change (WSend i p m :: WDeliver k m :: map (WListener k) steps) with ([WSend i p m] ++ [WDeliver k m] ++ map (WListener k) steps).
    eapply wrun_app; [apply wrun_one, S1|]. eapply wrun_app; [apply wrun_one, S2|exact Rw].
  - intros r Hr. rewrite (C r Hr). unfold packet_of, datagram_of. cbn. rewrite D, firstn_all2 by exact Le. reflexivity.
  - intros j Hj. rewrite (O j Hj). cbn. rewrite nth_error_set_nth. apply Nat.eqb_neq in Hj. rewrite ?(Nat.eqb_sym k j), Hj. reflexivity.
Qed.

Lemma sends_app a b : sends (a ++ b) = sends a ++ sends b.
Proof. induction a as [|[] a IH]; cbn; rewrite ?IH; reflexivity. Qed.
Lemma sends_listener k l : sends (map (WListener k) l) = [].
Proof. induction l; auto. Qed.
Lemma calls_app r a b : calls r (a ++ b) = calls r a ++ calls r b.
Proof.
  induction a as [|[] a IH]; cbn [calls app]; rewrite ?IH; try reflexivity.
  destruct (_ =? _); cbn; rewrite ?IH; reflexivity.
Qed.

Lemma many_arrive T k h y c : forall (l : list (nat * packet * message)) w s,
  nth_error (w_sockets w) k = Some {| sk_host := h; sk_address := y; sk_end := Listening c s |} ->
  idle s -> ns_queue s = [] -> length (ns_buffer s) = nc_buffersize c ->
  Forall (fun x => can_put T w (fst (fst x)) (snd (fst x)) (snd x) /\ addressed_to T (snd x) h y /\
                   length (packet_bytes (snd (fst x))) <= nc_buffersize c) l ->
  exists tr' w' s',
    wrun T w tr' w' /\ Forall (plain_event k) tr' /\ sends tr' = l /\
    (forall r, r < nc_receivers c -> calls r (trace_at k tr') = map (fun x => (packet_bytes (snd (fst x)), m_from (snd x))) l) /\
    nth_error (w_sockets w') k = Some {| sk_host := h; sk_address := y; sk_end := Listening c s' |} /\ idle s' /\ ns_queue s' = [].
Proof.
  induction l as [|[[i p] m] l IH]; intros w s Hk Id Q B F.
  - exists [], w, s. repeat split; auto; try apply Id; constructor.
  - inversion F as [|? ? (P & A & Le) F' E]; subst. cbn [fst snd] in *.
    destruct (one_arrives T w i k h p m y c s P Hk Id Q B A Le) as (steps & w1 & s1 & R1 & F1 & C1 & Hk1 & Id1 & Q1 & B1 & O1).
    destruct (IH w1 s1 Hk1 Id1 Q1 B1) as (tr2 & w2 & s2 & R2 & F2 & S2 & C2 & Hk2 & Id2 & Q2).
    { eapply Forall_impl; [|exact F']. intros [[i' p'] m'] (P' & A' & L'). cbn [fst snd] in *. split; [|auto].
      destruct P' as (x' & q' & Hi & rest). exists x', q'. split; [|exact rest].
      rewrite O1; [exact Hi|]. intros ->. rewrite Hk in Hi. discriminate Hi. }
    exists ((WSend i p m :: WDeliver k m :: map (WListener k) steps) ++ tr2), w2, s2.
    split; [eapply wrun_app; eassumption|]. split.
    { apply Forall_app. split; [|exact F2]. constructor; [exact I|]. constructor; [reflexivity|].
      apply Forall_forall. intros e He. apply in_map_iff in He as (z & <- & Hz). split; [reflexivity|].
      rewrite Forall_forall in F1. now apply F1. }
    split. { rewrite sends_app. cbn [sends]. rewrite sends_listener, S2. reflexivity. }
    split; [|auto]. intros r Hr. rewrite trace_at_app, calls_app, (C2 r Hr). cbn [trace_at]. rewrite Nat.eqb_refl, trace_at_listener.
    cbn [calls]. rewrite (C1 r Hr). reflexivity.
Qed.

(** C90. And any number of packets can arrive one after the other, from any senders: the receivers are called with all of them, in the order in
    which they were sent, and the listener waits again. *)
Lemma p_C90_any_number_can_arrive :
  forall (T : topology) (tr : list event) (w : world) (k h : nat) (y : address) (c : net_config) (s : net_state)
         (l : list (nat * packet * message)),
    wrun T world_init tr w ->
    nth_error (w_sockets w) k = Some {| sk_host := h; sk_address := y; sk_end := Listening c s |} ->
    idle s -> ns_queue s = [] ->
    Forall (fun x => let '(i, p, m) := x in can_put T w i p m /\ addressed_to T m h y /\ length (packet_bytes p) <= nc_buffersize c) l ->
    exists (tr' : list event) (w' : world) (s' : net_state),
      wrun T w tr' w' /\ Forall (plain_event k) tr' /\ sends tr' = l /\
      (forall r, r < nc_receivers c -> calls r (trace_at k tr') = map (fun x => let '(_, p, m) := x in (packet_bytes p, m_from m)) l) /\
      nth_error (w_sockets w') k = Some {| sk_host := h; sk_address := y; sk_end := Listening c s' |} /\ idle s' /\ ns_queue s' = [].
Proof.
  intros T tr w k h y c s l R Hk Id Q F.
  destruct (many_arrive T k h y c l w s Hk Id Q (listening_buffer _ _ _ _ _ _ _ _ R Hk)) as (tr' & w' & s' & R' & P & S & C & Z).
  { eapply Forall_impl; [|exact F]. now intros [[i p] m] H. }
  exists tr', w', s'. split; [exact R'|]. split; [exact P|]. split; [exact S|]. split; [|exact Z].
  intros r Hr. rewrite (C r Hr). apply map_ext. now intros [[i p] m].
Qed.

(** C113 (refuted: "a verified message was sent to me, now, by its signer"). Take a message that the owner of a key signed for community [c], once, and
    any list of sender's sockets - the owner's or anybody else's, on any hosts. Then each of them can send a copy to a listener on any
    host, and the handler of [c] there is called for all the copies, in order, with the addresses of those who sent them; each time it pops
    the header, verifies (true) and reads the payloads. So a signature says nothing about recipient, time, number of copies or sender. *)
Lemma p_C113_signed_messages_are_bound_to_no_recipient_refuted :
  forall (seed pk ekey : list byte) (mt : byte) (payloads : list payload) (key : keypair ring_pkcs8) (p0 unsigned signed : packet)
         (T : topology) (tr : list event) (w : world) (k h : nat) (y : address) (nc : net_config) (s : net_state)
         (copies : list (nat * message)) (cs : list community) (c : community),
    (* the owner of the key signs it once *)
    keypair_from_seed_unchecked ring_pkcs8 seed = Ok key -> is_public_key seed pk -> length ekey = 32 ->
    Forall (fun x => in_range (projT1 x) (projT2 x)) payloads ->
    readable_sequence self_delimiting raw_at_end_only (map ptype payloads) = true ->
    packet_new (py_ipv8_header (c_mid c) mt) = Ok p0 ->
    add_all p0 (existT tval TBinMember (BinMember pk ekey) :: payloads) = Ok unsigned ->
    packet_sign unsigned key = Ok signed ->
    (* any listener that waits, and any senders *)
    wrun T world_init tr w ->
    nth_error (w_sockets w) k = Some {| sk_host := h; sk_address := y; sk_end := Listening nc s |} ->
    idle s -> ns_queue s = [] -> length (packet_raw signed) <= nc_buffersize nc ->
    Forall (fun x => can_put T w (fst x) signed (snd x) /\ addressed_to T (snd x) h y) copies ->
    is_registered c cs -> length (c_mid c) = 20 -> deprecated (N_of_byte mt) = false ->
    (forall c', In c' cs -> c_tag c' = c_tag c -> c_mid c' = c_mid c) ->
    exists (tr' : list event) (w' : world),
      wrun T w tr' w' /\ Forall (plain_event k) tr' /\ sends tr' = map (fun x => (fst x, signed, snd x)) copies /\
      (forall r, r < nc_receivers nc ->
         handler_calls (c_tag c) (effects_behind cs r (trace_at k tr')) =
           map (fun x => (spec_header (c_mid c) mt, start_deserialize signed, m_from (snd x))) copies) /\
      exists d1 d2 d3,
        pop_header (start_deserialize signed) = (d1, Ok (spec_header (c_mid c) mt)) /\
        verify_embedded ring_pkcs8 d1 = (d2, Ok true) /\
        read_all d2 (map ptype payloads) = (d3, Ok (map transmitted_payload payloads)).
Proof.
  intros seed pk ekey mt pls key p0 unsigned signed T tr w k h y nc s copies cs c K P Le Hr S Hp Ha Hs R Hk Id Q Lf F Reg Hm D Tg.
  assert (PK : public_key key = Ok pk).
  { apply from_seed_iff in K as [L ->]. rewrite (public_key_ok _ real_laws). f_equal. now apply is_public_key_iff. }
  destruct (p_C31_signed_message_end_to_end ring_pkcs8 real_laws key pk ekey (c_mid c) mt pls p0 unsigned signed PK Le Hm Hr S Hp Ha Hs)
    as (d1 & d2 & d3 & E1 & E2 & E3 & _).
  assert (Hl : exists rest, packet_bytes signed = header_layout (c_mid c) mt ++ rest).
  { unfold py_ipv8_header in Hp. rewrite packet_new_complete, byte_of_N_of_byte in Hp. injection Hp as <-.
    destruct (add_all_prefix _ _ _ Ha) as [m1 E4]. rewrite (sign_ok ring_pkcs8 real_laws) in Hs.
    assert (Es : signed = Packet (packet_bytes unsigned ++ ring_sign ring_pkcs8 key (packet_bytes unsigned))) by congruence. subst signed.
    cbn [packet_bytes] in *. rewrite E4. rewrite <- app_assoc. eauto. }
  destruct Hl as [rest El].
  destruct (p_C90_any_number_can_arrive T tr w k h y nc s (map (fun x => (fst x, signed, snd x)) copies) R Hk Id Q)
    as (tr' & w' & s' & R' & PE & SE & C & _).
  { apply Forall_map. eapply Forall_impl; [|exact F]. intros [i m] [A B]. cbn [fst snd] in *. auto. }
  exists tr', w'. split; [exact R'|]. split; [exact PE|]. split; [exact SE|]. split; [|exists d1, d2, d3; auto].
  intros r Hrr. unfold effects_behind. rewrite (C r Hrr), map_map. clear F C SE PE R'.
  induction copies as [|[i m] copies IH]; [reflexivity|]. cbn [map flat_map fst snd].
  rewrite handler_calls_app, (handled_message cs c signed (m_from m) mt rest Reg Hm Tg D El), IH. reflexivity.
Qed.

(** the hypotheses of C113 are met, for every seed: host 0 sends two copies of a signed message to the listener on host 1 *)
Example ex_C113_hypotheses :
  forall seed, length seed = 32 ->
  exists (key : keypair ring_pkcs8) pk p0 unsigned signed tr w y s m,
    keypair_from_seed_unchecked ring_pkcs8 seed = Ok key /\ is_public_key seed pk /\
    packet_new (py_ipv8_header e2e_mid x01) = Ok p0 /\
    add_all p0 (existT tval TBinMember (BinMember pk (repeat x06 32)) :: example_payloads) = Ok unsigned /\
    packet_sign unsigned key = Ok signed /\
    wrun two_hosts world_init tr w /\
    nth_error (w_sockets w) 1 = Some {| sk_host := 1; sk_address := y; sk_end := Listening (listen_config overlay_config 1) s |} /\
    idle s /\ ns_queue s = [] /\ length (packet_raw signed) <= nc_buffersize (listen_config overlay_config 1) /\
    Forall (fun x => can_put two_hosts w (fst x) signed (snd x) /\ addressed_to two_hosts (snd x) 1 y) [(0, m); (0, m)] /\
    is_registered (e2e_community 1 e2e_mid) e2e_registry.
Proof.
  intros seed L. destruct (ex_signed_message seed L) as (key & p0 & un & sg & H1 & H2 & H3 & H4 & H5).
  destruct overlay_setup_run as (w0 & c & s & R & Hi & Hk & Id & Q & ->).
  exists key, (ed_public_key seed), p0, un, sg, overlay_setup, w0, (v4 0 0 0 0 9000), s, (ex_message sg).
  split; [exact H1|]. split; [now apply seed_has_a_key|]. split; [exact H2|]. split; [exact H3|]. split; [exact H4|].
  split; [exact R|]. split; [exact Hk|]. split; [exact Id|]. split; [exact Q|].
  split; [change (length (packet_raw sg) <= 256); rewrite H5; lia|].
  assert (A : can_put two_hosts w0 0 sg (ex_message sg) /\ addressed_to two_hosts (ex_message sg) 1 (v4 0 0 0 0 9000)).
  { split.
    - exists (v4 0 0 0 0 8000), []. split; [exact Hi|]. split; [reflexivity|]. split; [reflexivity|].
      split; [right; repeat constructor|]. left. split; reflexivity.
    - split; [reflexivity|]. split; [reflexivity|]. right. repeat constructor. }
  split; [repeat constructor; exact A || apply A|].
  exists [], [e2e_community 2 (repeat x2b 20)]; split; [reflexivity|repeat constructor; discriminate].
Qed.
