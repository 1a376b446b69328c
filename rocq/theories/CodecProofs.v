(** * CodecProofs: C05-C21 *)
From Coq Require Import Strings.String.
From Verif Require Import Base Serde Codec Universe Spec SerdeFacts CodecFacts UniverseFacts Packet Client PacketFacts.
Open Scope nat_scope.

(** C05. [Packet::add] appends exactly the specified bytes of the payload ([layout], Spec.v). *)
Lemma p_C05_wire_layout :
  forall (t : ty) (p : packet) (v : tval t),
    in_range t v -> encodable t v ->
    packet_add t p v = (Packet (packet_raw p ++ layout t v), Ok tt).
Proof. intros t p v Hr He. now apply packet_add_ok. Qed.

(** A user-defined struct used in the examples: u16, address, nested struct with VarLen16 and VarLen64. *)
Definition example_ty : ty :=
  TStruct (FCons TU16 (FCons TAddress (FCons (TStruct (FCons TVarLen16 (FCons TVarLen64 FNil))) FNil))).
Definition example_val : tval example_ty :=
  (42%N, (V4 x7f x00 x00 x01 8000%N, ((VarLen16 [x01; x02; x03], (VarLen64 [x09], tt)), tt))).
Example ex_C05_struct :
  in_range example_ty example_val /\ encodable example_ty example_val /\ self_delimiting example_ty = true /\
  packet_add example_ty (Packet [xaa]) example_val =
    (Packet (bs [0xaa; 0; 42; 127; 0; 0; 1; 0x1f; 0x40; 0; 3; 1; 2; 3; 0; 0; 0; 0; 0; 0; 0; 1; 9]%N), Ok tt).
Proof. vm_compute. repeat split; congruence. Qed.

(** C06. What [add] wrote at the end of [p], [next_payload] reads back from there, whatever is appended
    later, and the cursor ends exactly behind it. *)
Lemma p_C06_round_trip :
  forall (t : ty) (p q : packet) (v : tval t) (later : list byte),
    in_range t v -> self_delimiting t = true ->
    packet_add t p v = (q, Ok tt) ->
    let received := Packet (packet_raw q ++ later) in
    next_payload t {| pntr := received; index := length (packet_raw p) |}
    = ({| pntr := received; index := length (packet_raw q) |}, Ok (transmitted t v)).
Proof.
  intros t p q v later Hr Hs Ha. apply packet_add_ok_inv in Ha as [He ->]; [|assumption].
  cbv zeta. unfold packet_raw. cbn [packet_bytes]. rewrite <- app_assoc.
  rewrite next_payload_round by assumption. rewrite app_length. reflexivity.
Qed.
(** C06, for types ending in raw bytes, when nothing is added after them. *)
Lemma p_C06_round_trip_raw_tail :
  forall (t : ty) (p q : packet) (v : tval t),
    in_range t v -> raw_at_end_only t = true ->
    packet_add t p v = (q, Ok tt) ->
    next_payload t {| pntr := q; index := length (packet_raw p) |}
    = ({| pntr := q; index := length (packet_raw q) |}, Ok (transmitted t v)).
Proof.
  intros t p q v Hr Hs Ha. apply packet_add_ok_inv in Ha as [He ->]; [|assumption].
  unfold packet_raw. cbn [packet_bytes].
  rewrite next_payload_round_end by assumption. rewrite app_length. reflexivity.
Qed.
(** C06. Nothing at all is lost unless the type contains an introduction payload. *)
Lemma p_C06_nothing_lost :
  forall (t : ty) (v : tval t), has_introduction t = false -> transmitted t v = v.
Proof. exact (proj1 transmitted_id_all). Qed.
Example ex_C06_struct :
  next_payload example_ty
    {| pntr := Packet (packet_raw (fst (packet_add example_ty (Packet [xaa]) example_val)) ++ [xbb]); index := 1 |}
  = ({| pntr := Packet (packet_raw (fst (packet_add example_ty (Packet [xaa]) example_val)) ++ [xbb]); index := 23 |},
     Ok example_val).
Proof. vm_compute. reflexivity. Qed.

(** ** Sequences of payloads *)
Definition payload_ok (x : payload) : Prop := in_range (projT1 x) (projT2 x) /\ encodable (projT1 x) (projT2 x).
Definition payload_layout (x : payload) : list byte := layout (projT1 x) (projT2 x).

Lemma add_all_ok l : forall p,
  Forall payload_ok l -> add_all p l = Ok (Packet (packet_bytes p ++ flat_map payload_layout l)).
Proof.
  induction l as [|[t v] l IH]; intros p H.
  - cbn. rewrite app_nil_r. now destruct p.
  - inversion H as [|? ? [Hr He] H']; subst. cbn [projT1 projT2] in *.
    cbn [add_all]. rewrite packet_add_ok by assumption. rewrite IH by assumption.
    cbn [packet_bytes flat_map payload_layout projT1 projT2]. now rewrite app_assoc.
Qed.

Lemma read_all_ok l : forall pre,
  Forall payload_ok l ->
  readable_sequence self_delimiting raw_at_end_only (map ptype l) = true ->
  read_all (Deserializer (Packet (pre ++ flat_map payload_layout l)) (length pre)) (map ptype l) =
    (Deserializer (Packet (pre ++ flat_map payload_layout l)) (length (pre ++ flat_map payload_layout l)),
     Ok (map transmitted_payload l)).
Proof.
  induction l as [|[t v] l IH]; intros pre H S.
  - cbn. now rewrite app_nil_r.
  - inversion H as [|? ? [Hr He] H']; subst. cbn [projT1 projT2] in *.
    cbn [map ptype projT1 read_all flat_map].
    change (payload_layout (existT _ t v)) with (layout t v).
    destruct l as [|y l'].
    + cbn [map flat_map] in *. rewrite app_nil_r.
      rewrite next_payload_round_end by assumption.
      cbn [read_all map transmitted_payload projT1 projT2]. now rewrite app_length.
    + assert (S1 : self_delimiting t = true /\
                   readable_sequence self_delimiting raw_at_end_only (map ptype (y :: l')) = true).
      { apply andb_true_iff. exact S. }
      destruct S1 as [S1 S2].
      rewrite next_payload_round by assumption.
      rewrite app_assoc, <- app_length.
      rewrite IH by assumption. reflexivity.
Qed.

(** C07. A packet built from a header and any payloads is read back by [pop_header] and one
    [next_payload] per payload: same values, same order, cursor at the end; and reading one more
    non-empty payload is an error. *)
Lemma p_C07_multi_payload_round_trip :
  forall (mid : list byte) (mt : byte) (l : list payload) (p q : packet),
    length mid = 20 ->
    Forall (fun x => in_range (projT1 x) (projT2 x)) l ->
    readable_sequence self_delimiting raw_at_end_only (map ptype l) = true ->
    packet_new (py_ipv8_header mid mt) = Ok p ->
    add_all p l = Ok q ->
    exists d1 d2,
      pop_header (start_deserialize q) = (d1, Ok (spec_header mid mt)) /\
      read_all d1 (map ptype l) = (d2, Ok (map transmitted_payload l)) /\
      d2 = {| pntr := q; index := length (packet_raw q) |} /\
      (forall t, 0 < min_size t -> exists e, next_payload t d2 = (d2, Err e)).
Proof.
  intros mid mt l p q Hm Hr S Hp Hq.
  assert (Hok : Forall payload_ok l).
  { clear S Hp. revert p Hq. induction l as [|[t v] l IH]; intros p Hq; [constructor|].
    inversion Hr as [|? ? Hv Hr']; subst. cbn [projT1 projT2] in Hv. cbn [add_all] in Hq.
    destruct (encodable_dec t v Hv) as [He|He].
    - rewrite packet_add_ok in Hq by assumption. constructor; [now split|].
      eapply IH; eassumption.
    - destruct (packet_add_err t p v Hv He) as [m E]. rewrite E in Hq. discriminate. }
  unfold py_ipv8_header in Hp. rewrite packet_new_complete, byte_of_N_of_byte in Hp.
  injection Hp as <-. rewrite add_all_ok in Hq by assumption. injection Hq as <-.
  cbn [packet_bytes]. set (body := flat_map payload_layout l).
  assert (L : length (header_layout mid mt) = 23).
  { unfold header_layout. rewrite !app_length, Hm. reflexivity. }
  exists (Deserializer (Packet (header_layout mid mt ++ body)) 23).
  eexists. split; [|split; [|split; [reflexivity|]]].
  - unfold start_deserialize, pop_header.
    rewrite peek_header_ok.
    + cbn [Nat.add].
      assert (F : firstn 20 (skipn 2 (header_layout mid mt ++ body)) = mid /\
                  byte_at (header_layout mid mt ++ body) 22 = mt).
      { unfold header_layout. cbn [app skipn]. rewrite <- app_assoc, firstn_app_exact by assumption.
        split; [reflexivity|].
        change (byte_at (mid ++ [mt] ++ body) (20 + 0) = mt).
        rewrite <- byte_at_skipn, skipn_app_exact by assumption. reflexivity. }
      change (x00 :: x02 :: (mid ++ [mt]) ++ body) with (header_layout mid mt ++ body).
      destruct F as [-> ->]. reflexivity.
    + lia.
    + change (x00 :: x02 :: (mid ++ [mt]) ++ body) with (header_layout mid mt ++ body).
      apply header_prefix_ok_iff. rewrite app_length, L. unfold header_layout. cbn. repeat split; lia.
  - unfold packet_raw. cbn [packet_bytes]. rewrite <- L at 1. now apply read_all_ok.
  - intros t Ht. unfold packet_raw. cbn [packet_bytes].
    destruct (proj1 de_nil_all t) as [N _]. destruct (N Ht) as [e E]. exists e.
    rewrite next_payload_eq by lia. rewrite skipn_all, E. reflexivity.
Qed.
Definition example_payloads : list payload :=
  [existT _ TTime (TimeDistribution 5%N); existT tval example_ty example_val;
   existT _ TRawEnd (RawEnd [x01; x02])].
Example ex_C07_sequence :
  Forall (fun x => in_range (projT1 x) (projT2 x)) example_payloads /\
  readable_sequence self_delimiting raw_at_end_only (map ptype example_payloads) = true /\
  is_ok (add_all (Packet (header_layout (repeat x2a 20) x01)) example_payloads) = true.
Proof. split; [|split; reflexivity]. repeat constructor; vm_compute; congruence. Qed.

(** ** Fixed layouts *)

(** C08. TimeDistribution: 8 bytes, the big-endian time. *)
Lemma p_C08_time_distribution :
  forall (p : list byte) (i : nat),
    i <= length p ->
    next_payload TTime (Deserializer (Packet p) i) =
      if 8 <=? length p - i
      then (Deserializer (Packet p) (i + 8), Ok (TimeDistribution (u64_at p i)))
      else (Deserializer (Packet p) i, Err EEof).
Proof.
  intros p i Hi. rewrite next_payload_eq by assumption. cbn [de].
  rewrite de_time_at, skipn_length.
  destruct (Nat.ltb_spec (length p - i) 8), (Nat.leb_spec 8 (length p - i)); try lia; [reflexivity|].
  cbn [layout global_time]. unfold u64_at. rewrite !n_at_skipn, Nat.add_0_r.
  reflexivity.
Qed.
(** C08. Puncture: 14 bytes. *)
Lemma p_C08_puncture :
  forall (p : list byte) (i : nat),
    i <= length p ->
    next_payload TPuncture (Deserializer (Packet p) i) =
      if 14 <=? length p - i
      then (Deserializer (Packet p) (i + 14), Ok (puncture_of (skipn i p)))
      else (Deserializer (Packet p) i, Err EEof).
Proof.
  intros p i Hi. rewrite next_payload_eq by assumption. cbn [de].
  rewrite de_puncture_at, skipn_length.
  destruct (Nat.ltb_spec (length p - i) 14), (Nat.leb_spec 14 (length p - i)); try lia; reflexivity.
Qed.
(** C08. PunctureRequest: 14 bytes. *)
Lemma p_C08_puncture_request :
  forall (p : list byte) (i : nat),
    i <= length p ->
    next_payload TPunctureRequest (Deserializer (Packet p) i) =
      if 14 <=? length p - i
      then (Deserializer (Packet p) (i + 14), Ok (puncture_request_of (skipn i p)))
      else (Deserializer (Packet p) i, Err EEof).
Proof.
  intros p i Hi. rewrite next_payload_eq by assumption. cbn [de].
  rewrite de_puncture_request_at, skipn_length.
  destruct (Nat.ltb_spec (length p - i) 14), (Nat.leb_spec 14 (length p - i)); try lia; reflexivity.
Qed.
Lemma fits_skipn n p : fits_memory p -> fits_memory (skipn n p).
Proof. apply fits_memory_skipn. Qed.
(** C08. IntroductionRequest: 21 bytes, then everything that is left. *)
Lemma p_C08_introduction_request :
  forall (p : list byte) (i : nat),
    i <= length p -> fits_memory p ->
    next_payload TIntroductionRequest (Deserializer (Packet p) i) =
      if 21 <=? length p - i
      then (Deserializer (Packet p) (length p), Ok (introduction_request_of (skipn i p)))
      else (Deserializer (Packet p) i, Err EEof).
Proof.
  intros p i Hi Hf. rewrite next_payload_eq by assumption. cbn [de].
  rewrite de_introduction_request_any, skipn_length.
  destruct (Nat.ltb_spec (length p - i) 21), (Nat.leb_spec 21 (length p - i)); try lia; [reflexivity|].
  rewrite request_any_fits by now apply fits_skipn.
  cbn [layout]. rewrite request_layout_length by (now repeat split).
  cbn [introduction_request_of iq_extra_bytes raw_bytes].
  do 2 f_equal. rewrite !skipn_length. lia.
Qed.
(** C08. IntroductionResponse: 33 bytes, then everything that is left. *)
Lemma p_C08_introduction_response :
  forall (p : list byte) (i : nat),
    i <= length p -> fits_memory p ->
    next_payload TIntroductionResponse (Deserializer (Packet p) i) =
      if 33 <=? length p - i
      then (Deserializer (Packet p) (length p), Ok (introduction_response_of (skipn i p)))
      else (Deserializer (Packet p) i, Err EEof).
Proof.
  intros p i Hi Hf. rewrite next_payload_eq by assumption. cbn [de].
  rewrite de_introduction_response_any, skipn_length.
  destruct (Nat.ltb_spec (length p - i) 33), (Nat.leb_spec 33 (length p - i)); try lia; [reflexivity|].
  rewrite response_any_fits by now apply fits_skipn.
  cbn [layout]. rewrite response_layout_length by (now repeat split).
  cbn [introduction_response_of ir_extra_bytes raw_bytes].
  do 2 f_equal. rewrite !skipn_length. lia.
Qed.
Example ex_C08_request :
  let p := bs [127;0;0;1;31;64; 127;0;0;2;31;65; 127;0;0;3;31;66; 0x81; 0x12;0x34; 9;9]%N in
  fits_memory p /\
  snd (next_payload TIntroductionRequest (Deserializer (Packet p) 0)) = Ok {|
    iq_destination_address := V4 x7f x00 x00 x01 8000%N;
    iq_source_lan_address := V4 x7f x00 x00 x02 8001%N;
    iq_source_wan_address := V4 x7f x00 x00 x03 8002%N;
    iq_advice := true; iq_connection_type := PUBLIC; iq_identifier := 0x1234%N;
    iq_extra_bytes := RawEnd [x09; x09] |}.
Proof. split; [now vm_compute|vm_compute; reflexivity]. Qed.

(** ** Prefixes and suffixes *)
Lemma prefix_err t c v k :
  self_delimiting t = true -> de t c = Ok (v, []) -> k < length c ->
  exists e, de t (firstn k c) = Err e.
Proof.
  intros Hs Hd Hk. destruct (de t (firstn k c)) as [[v' r]|e|q] eqn:E; [| now exists e |].
  - exfalso. destruct (f_ok t (facts_of t) _ _ _ E) as (c1 & Hc & _ & _ & _ & _ & _ & _ & S).
    specialize (S Hs (r ++ skipn k c)). rewrite app_assoc, <- Hc, firstn_skipn, Hd in S.
    injection S as _ S. apply (f_equal (@length byte)) in S.
    rewrite app_length, skipn_length in S. cbn in S. lia.
  - exfalso. apply (f_panic t (facts_of t)) with (y := skipn k c) in E; [|assumption].
    rewrite firstn_skipn, Hd in E. discriminate.
Qed.

(** C09. A payload cut short anywhere is an error. *)
Lemma p_C09_truncated_rejected :
  forall (t : ty) (p q : packet) (v : tval t) (cut : nat),
    in_range t v -> self_delimiting t = true ->
    packet_add t p v = (q, Ok tt) ->
    length (packet_raw p) <= cut < length (packet_raw q) ->
    let d := {| pntr := Packet (firstn cut (packet_raw q)); index := length (packet_raw p) |} in
    exists e, next_payload t d = (d, Err e).
Proof.
  intros t p q v cut Hr Hs Ha Hc. apply packet_add_ok_inv in Ha as [He ->]; [|assumption].
  unfold packet_raw in *. cbn [packet_bytes] in *. cbv zeta.
  set (b := packet_bytes p) in *. rewrite app_length in Hc.
  assert (E : firstn cut (b ++ layout t v) = b ++ firstn (cut - length b) (layout t v)).
  { rewrite firstn_app. now rewrite firstn_all2 by lia. }
  rewrite E. rewrite next_payload_eq by (rewrite app_length; lia).
  rewrite skipn_app_exact by reflexivity.
  destruct (prefix_err t (layout t v) (transmitted t v) (cut - length b)) as [e ->]; [assumption| |lia|].
  - rewrite <- (app_nil_r (layout t v)). now apply (f_round t (facts_of t)).
  - now exists e.
Qed.
Example ex_C09_struct :
  packet_add example_ty (Packet [xaa]) example_val = (fst (packet_add example_ty (Packet [xaa]) example_val), Ok tt)
  /\ length (packet_raw (fst (packet_add example_ty (Packet [xaa]) example_val))) = 23.
Proof. now vm_compute. Qed.

(** C10. Bytes behind a self-delimiting payload matter neither for success nor for the value. *)
Lemma p_C10_suffix_irrelevant :
  forall (t : ty) (p : list byte) (i j : nat) (v : tval t) (more : list byte),
    self_delimiting t = true -> i <= length p ->
    next_payload t (Deserializer (Packet p) i) = (Deserializer (Packet p) j, Ok v) ->
    next_payload t (Deserializer (Packet (p ++ more)) i) = (Deserializer (Packet (p ++ more)) j, Ok v).
Proof.
  intros t p i j v more Hs Hi H.
  destruct (next_payload_consumes t p i j v Hi H) as (c & r & Hc & _ & -> & _ & _ & _ & _ & _ & _ & S).
  rewrite next_payload_eq by (rewrite app_length; lia).
  rewrite skipn_app. replace (i - length p) with 0 by lia. cbn [skipn].
  rewrite Hc, <- app_assoc, S by assumption. reflexivity.
Qed.
(** C10. The result is determined by the bytes up to the new cursor (authentication payloads: up to
    the end of the key blob, see C25). *)
Lemma p_C10_only_consumed_bytes_matter :
  forall (t : ty) (p p' : list byte) (i j : nat) (v : tval t),
    self_delimiting t = true -> has_auth t = false -> i <= length p ->
    next_payload t (Deserializer (Packet p) i) = (Deserializer (Packet p) j, Ok v) ->
    firstn j p' = firstn j p ->
    next_payload t (Deserializer (Packet p') i) = (Deserializer (Packet p') j, Ok v).
Proof.
  intros t p p' i j v Hs Ha Hi H Hj.
  destruct (next_payload_consumes t p i j v Hi H) as (c & r & Hc & _ & -> & _ & _ & _ & _ & A & _ & S).
  specialize (A Ha).
  assert (Lp : length c + length r = length p - i).
  { rewrite <- skipn_length, Hc, app_length. lia. }
  assert (Lp' : i + length (layout t v) <= length p').
  { apply (f_equal (@length byte)) in Hj. rewrite !firstn_length in Hj. lia. }
  assert (E : exists r', skipn i p' = c ++ r').
  { exists (skipn (i + length (layout t v)) p').
    rewrite <- (firstn_skipn (i + length (layout t v)) p') at 1. rewrite Hj.
    rewrite skipn_app. f_equal.
    - replace (skipn i (firstn (i + length (layout t v)) p)) with (firstn (length (layout t v)) (skipn i p)).
      + rewrite Hc, A. apply firstn_app_exact. reflexivity.
      + rewrite firstn_plus, skipn_app_exact; [reflexivity|]. rewrite firstn_length. lia.
    - rewrite firstn_length. replace (i - _) with 0 by lia. reflexivity. }
  destruct E as [r' E]. rewrite next_payload_eq by lia. rewrite E, S by assumption. reflexivity.
Qed.
Example ex_C10_value :
  exists j v, next_payload TVarLen16 (Deserializer (Packet [x00; x02; x07; x08]) 0)
              = (Deserializer (Packet [x00; x02; x07; x08]) j, Ok v).
Proof. now do 2 eexists. Qed.

(** C11. Encoding is injective up to what is not transmitted. *)
Lemma p_C11_injective :
  forall (t : ty) (p q : packet) (v w : tval t),
    raw_at_end_only t = true -> in_range t v -> in_range t w ->
    packet_add t p v = (q, Ok tt) -> packet_add t p w = (q, Ok tt) ->
    transmitted t v = transmitted t w.
Proof.
  intros t p q v w Ht Hv Hw A B.
  apply packet_add_ok_inv in A as [Ev ->]; [|assumption].
  apply packet_add_ok_inv in B as [Ew B]; [|assumption].
  injection B as B. apply app_inv_head in B.
  pose proof (f_round_end t (facts_of t) v Hv Ev Ht) as R1.
  pose proof (f_round_end t (facts_of t) w Hw Ew Ht) as R2.
  rewrite B, R2 in R1. now injection R1.
Qed.
Lemma p_C11_injective_exact :
  forall (t : ty) (p q : packet) (v w : tval t),
    raw_at_end_only t = true -> has_introduction t = false -> in_range t v -> in_range t w ->
    packet_add t p v = (q, Ok tt) -> packet_add t p w = (q, Ok tt) -> v = w.
Proof.
  intros t p q v w Ht Hn Hv Hw A B.
  pose proof (p_C11_injective t p q v w Ht Hv Hw A B) as E.
  now rewrite !(proj1 transmitted_id_all) in E.
Qed.
(** C11. Without the condition on raw bytes it is false: a user struct with raw bytes in the middle. *)
Lemma p_C11_raw_in_middle_refuted :
  exists (t : ty) (v w : tval t),
    in_range t v /\ in_range t w /\ v <> w /\ packet_add t (Packet []) v = packet_add t (Packet []) w.
Proof.
  exists (TStruct (FCons TRawEnd (FCons TRawEnd FNil))).
  exists (RawEnd [x01], (RawEnd [], tt)), (RawEnd [], (RawEnd [x01], tt)).
  repeat split; try reflexivity. congruence.
Qed.

(** C12. An introduction response comes back as it was sent, with the tunnel flag cleared. *)
Lemma p_C12_response_loses_tunnel_flag :
  forall (p q : packet) (v : introduction_response),
    in_range TIntroductionResponse v ->
    packet_add TIntroductionResponse p v = (q, Ok tt) ->
    next_payload TIntroductionResponse {| pntr := q; index := length (packet_raw p) |} =
      ({| pntr := q; index := length (packet_raw q) |},
       Ok {| ir_destination_address := ir_destination_address v;
             ir_source_lan_address := ir_source_lan_address v;
             ir_source_wan_address := ir_source_wan_address v;
             ir_lan_introduction_address := ir_lan_introduction_address v;
             ir_wan_introduction_address := ir_wan_introduction_address v;
             ir_tunnel := false;
             ir_connection_type := ir_connection_type v;
             ir_identifier := ir_identifier v;
             ir_extra_bytes := ir_extra_bytes v |}).
Proof.
  intros p q v Hr Ha.
  exact (p_C06_round_trip_raw_tail TIntroductionResponse p q v Hr eq_refl Ha).
Qed.
(** C12. So the round trip of [tunnel = true] fails. *)
Lemma p_C12_tunnel_round_trip_refuted :
  exists (v w : introduction_response) (q : packet) (d : deserializer),
    in_range TIntroductionResponse v /\ packet_add TIntroductionResponse (Packet []) v = (q, Ok tt) /\
    next_payload TIntroductionResponse (start_deserialize q) = (d, Ok w) /\ w <> v.
Proof.
  pose (a := V4 x7f x00 x00 x01 8000%N).
  exists (IntroductionResponse a a a a a true PUBLIC 5%N (RawEnd [])).
  do 3 eexists. split; [repeat split|]. split; [reflexivity|]. split; [vm_compute; reflexivity|].
  discriminate.
Qed.

(** ** Flags *)

(** C13. [Bits] and bytes correspond one to one, bit i having weight 2^i. *)
Lemma p_C13_bits_bijection :
  (forall x : byte, bits_to_u8 (bits_from_u8 x) = x) /\
  (forall b : bits, bits_from_u8 (bits_to_u8 b) = b).
Proof. split; [apply bits_to_from|apply bits_from_to]. Qed.
Lemma p_C13_bit_weights :
  forall x : byte,
    let b := bits_from_u8 x in
    let n := N_of_byte x in
    bit0 b = N.testbit n 0 /\ bit1 b = N.testbit n 1 /\ bit2 b = N.testbit n 2 /\ bit3 b = N.testbit n 3 /\
    bit4 b = N.testbit n 4 /\ bit5 b = N.testbit n 5 /\ bit6 b = N.testbit n 6 /\ bit7 b = N.testbit n 7.
Proof. intros x. destruct x; vm_compute; repeat split. Qed.
Lemma p_C13_bits_constructors :
  bits_to_u8 bits_new = x00 /\
  forall b0 b1 b2 b3 b4 b5 b6 b7,
    N_of_byte (bits_to_u8 (bits_from_bools b0 b1 b2 b3 b4 b5 b6 b7)) =
    (weight b0 0 + weight b1 1 + weight b2 2 + weight b3 3 +
     weight b4 4 + weight b5 5 + weight b6 6 + weight b7 7)%N.
Proof. split; [reflexivity|]. intros [] [] [] [] [] [] [] []; reflexivity. Qed.

(** C14. Connection types survive; the fourth bit pattern is read as unknown and never written. *)
Lemma p_C14_connection_type :
  (forall c, ct_decode (ct_encode c) = c) /\
  ct_decode (false, true) = UNKNOWN /\
  (forall c, ct_encode c <> (false, true)) /\
  (forall b, b <> (false, true) -> ct_encode (ct_decode b) = b).
Proof.
  repeat split; try (intros []; discriminate || reflexivity).
  intros [[] []]; try reflexivity. intros H. now contradiction H.
Qed.

(** ** Re-encoding *)

(** C15. Re-adding a decoded payload (no introduction or authentication payload inside) reproduces the
    packet's own bytes. *)
Lemma p_C15_reencoding_exact :
  forall (t : ty) (p : list byte) (i j : nat) (v : tval t),
    has_auth t = false -> has_introduction t = false -> i <= length p ->
    next_payload t (Deserializer (Packet p) i) = (Deserializer (Packet p) j, Ok v) ->
    packet_add t (Packet (firstn i p)) v = (Packet (firstn j p), Ok tt).
Proof.
  intros t p i j v Ha Hn Hi H.
  destruct (next_payload_consumes t p i j v Hi H) as (c & r & Hc & _ & -> & _ & R & N & _ & _ & X & _).
  rewrite packet_add_ok by assumption. cbn [packet_bytes].
  rewrite firstn_plus, Hc, X by assumption. now rewrite firstn_app_exact.
Qed.
(** C15. Introduction request: all bytes are reproduced but the flag byte at offset 18, of which only
    the advice bit and the connection type (10 read as 00) are kept. *)
Lemma p_C15_reencoding_request :
  forall (p : list byte) (i j : nat) (v : introduction_request),
    fits_memory p -> i <= length p ->
    next_payload TIntroductionRequest (Deserializer (Packet p) i) = (Deserializer (Packet p) j, Ok v) ->
    packet_add TIntroductionRequest (Packet (firstn i p)) v =
      (Packet (firstn (i + 18) p ++ [normal_request_flags (byte_at p (i + 18))] ++ skipn (i + 19) p), Ok tt).
Proof.
  intros p i j v Hf Hi H.
  destruct (next_payload_consumes TIntroductionRequest p i j v Hi H) as (c & r & Hc & _ & _ & _ & R & N & _).
  rewrite p_C08_introduction_request in H by assumption.
  destruct (Nat.leb_spec 21 (length p - i)) as [L|L]; [|discriminate].
  injection H as <- <-.
  rewrite packet_add_ok by assumption. cbn [packet_bytes layout].
  set (b := skipn i p) in *.
  assert (Lb : 21 <= length b) by (unfold b; rewrite skipn_length; lia).
  unfold request_layout. cbn [introduction_request_of iq_destination_address iq_source_lan_address
    iq_source_wan_address iq_connection_type iq_advice iq_identifier iq_extra_bytes raw_bytes].
  rewrite !address_layout_at, u16_layout_at by lia.
  rewrite firstn_plus, <- app_assoc. do 2 f_equal. f_equal.
  change (skipn i p) with b.
  replace (firstn 18 b) with (firstn 6 (skipn 0 b) ++ firstn 6 (skipn 6 b) ++ firstn 6 (skipn 12 b)).
  2:{ change 18 with (6 + (6 + 6)). rewrite !firstn_plus, skipn_skipn'. reflexivity. }
  rewrite <- !app_assoc. do 3 f_equal.
  replace (skipn (i + 19) p) with (firstn 2 (skipn 19 b) ++ skipn 21 b).
  2:{ unfold b. rewrite !skipn_skipn'. replace (i + 21) with (i + 19 + 2) by lia.
      rewrite <- (skipn_skipn' 2 (i + 19)), firstn_skipn. reflexivity. }
  f_equal. rewrite bs_byte.
  replace (byte_at p (i + 18)) with (byte_at b 18) by (unfold b; now rewrite byte_at_skipn).
  unfold normal_request_flags, connection_at, high_bit_at, n_at.
  destruct (byte_at b 18); reflexivity.
Qed.
(** C15. Introduction response: the flag byte is at offset 30 and only the connection type is kept. *)
Lemma p_C15_reencoding_response :
  forall (p : list byte) (i j : nat) (v : introduction_response),
    fits_memory p -> i <= length p ->
    next_payload TIntroductionResponse (Deserializer (Packet p) i) = (Deserializer (Packet p) j, Ok v) ->
    packet_add TIntroductionResponse (Packet (firstn i p)) v =
      (Packet (firstn (i + 30) p ++ [normal_response_flags (byte_at p (i + 30))] ++ skipn (i + 31) p), Ok tt).
Proof.
  intros p i j v Hf Hi H.
  destruct (next_payload_consumes TIntroductionResponse p i j v Hi H) as (c & r & Hc & _ & _ & _ & R & N & _).
  rewrite p_C08_introduction_response in H by assumption.
  destruct (Nat.leb_spec 33 (length p - i)) as [L|L]; [|discriminate].
  injection H as <- <-.
  rewrite packet_add_ok by assumption. cbn [packet_bytes layout].
  set (b := skipn i p) in *.
  assert (Lb : 33 <= length b) by (unfold b; rewrite skipn_length; lia).
  unfold response_layout. cbn [introduction_response_of ir_destination_address ir_source_lan_address
    ir_source_wan_address ir_lan_introduction_address ir_wan_introduction_address
    ir_connection_type ir_identifier ir_extra_bytes raw_bytes].
  rewrite !address_layout_at, u16_layout_at by lia.
  rewrite firstn_plus, <- app_assoc. do 2 f_equal. f_equal.
  change (skipn i p) with b.
  replace (firstn 30 b) with
    (firstn 6 (skipn 0 b) ++ firstn 6 (skipn 6 b) ++ firstn 6 (skipn 12 b) ++ firstn 6 (skipn 18 b)
     ++ firstn 6 (skipn 24 b)).
  2:{ change 30 with (6 + (6 + (6 + (6 + 6)))). rewrite !firstn_plus, !skipn_skipn'. reflexivity. }
  rewrite <- !app_assoc. do 5 f_equal.
  replace (skipn (i + 31) p) with (firstn 2 (skipn 31 b) ++ skipn 33 b).
  2:{ unfold b. rewrite !skipn_skipn'. replace (i + 33) with (i + 31 + 2) by lia.
      rewrite <- (skipn_skipn' 2 (i + 31)), firstn_skipn. reflexivity. }
  f_equal. rewrite bs_byte.
  replace (byte_at p (i + 30)) with (byte_at b 30) by (unfold b; now rewrite byte_at_skipn).
  unfold normal_response_flags, connection_at, n_at.
  destruct (byte_at b 30); reflexivity.
Qed.
(** C15. Authentication payload: exact when its key blob has 74 bytes, the length py-ipv8 uses. *)
Lemma p_C15_reencoding_auth :
  forall (p : list byte) (i j : nat) (v : bin_member),
    i <= length p -> u16_at p i = 74%N ->
    next_payload TBinMember (Deserializer (Packet p) i) = (Deserializer (Packet p) j, Ok v) ->
    packet_add TBinMember (Packet (firstn i p)) v = (Packet (firstn j p), Ok tt).
Proof.
  intros p i j v Hi H74 H.
  destruct (next_payload_consumes TBinMember p i j v Hi H) as (c & r & Hc & Hd & -> & _ & R & N & _).
  rewrite packet_add_ok by assumption. cbn [packet_bytes]. do 2 f_equal.
  rewrite firstn_plus. f_equal.
  cbn [de] in Hd. rewrite de_bin_member_blob in Hd.
  destruct (de_blob 2 (skipn i p)) as [[l r']| |] eqn:E; try discriminate. cbn [bind] in Hd.
  destruct (auth_of_contents l) as [v'| |] eqn:A; try discriminate. injection Hd as <- <-.
  apply de_blob_ok in E as (x & Ex & Lx & Vx).
  destruct (auth_of_contents_ok l v' A) as (Hlen & Hpre & Hv').
  assert (L2 : i + 2 <= length p).
  { apply (f_equal (@length byte)) in Ex. rewrite skipn_length, !app_length in Ex. lia. }
  rewrite u16_at_value in H74 by assumption.
  rewrite Ex, firstn_app_exact, Vx in H74 by assumption.
  assert (Hl : length l = 74) by (unfold len in H74; lia).
  cbn [layout]. rewrite auth_layout_length by exact R.
  rewrite Ex. change 76 with (2 + 74). rewrite firstn_plus, firstn_app_exact, skipn_app_exact by assumption.
  rewrite firstn_app_exact by assumption.
  unfold auth_layout. f_equal.
  - rewrite <- H74, <- Vx. now apply u16_bytes_value.
  - rewrite Hv'. cbn [bm_encryption_key_bin bm_public_key_bin]. rewrite <- libnacl_ascii, <- Hpre.
    replace (firstn 32 (skipn 42 l)) with (skipn 32 (skipn 10 l)).
    + now rewrite !firstn_skipn.
    + rewrite skipn_skipn'. cbn [Nat.add]. symmetry. apply firstn_all2. rewrite skipn_length. lia.
Qed.
Example ex_C15_flags_normalised :
  let p := bs [127;0;0;1;31;64; 127;0;0;2;31;65; 127;0;0;3;31;66; 0x7e; 0;1]%N in
  exists d v, next_payload TIntroductionRequest (start_deserialize (Packet p)) = (d, Ok v) /\
    nth 18 (packet_raw (fst (packet_add TIntroductionRequest (Packet []) v))) xff = x00.
Proof. do 2 eexists. split; [vm_compute; reflexivity|]. vm_compute. reflexivity. Qed.

(** ** Limits *)

(** C16. The size limits of [VarLen16], [VarLen32], [NestedPacket]. *)
Lemma p_C16_varlen_limits :
  forall (p : packet) (l : list byte),
    fits_memory l ->
    ((exists q, packet_add TVarLen16 p (VarLen16 l) = (q, Ok tt)) <-> (len l <= 65535)%N) /\
    ((exists q, packet_add TVarLen32 p (VarLen32 l) = (q, Ok tt)) <-> (len l <= 4294967295)%N) /\
    ((exists q, packet_add TNested p (NestedPacket (Packet l)) = (q, Ok tt)) <-> (len l <= 65535)%N) /\
    ((65535 < len l)%N -> packet_add TVarLen16 p (VarLen16 l) =
       (p, Err (ECustom "Data too large to fit in a VarLen16. Must be less than 65536 bytes."))) /\
    ((4294967295 < len l)%N -> packet_add TVarLen32 p (VarLen32 l) =
       (p, Err (ECustom "Data too large to fit in a VarLen32. Must be less than 4294967295 bytes."))) /\
    ((65535 < len l)%N -> packet_add TNested p (NestedPacket (Packet l)) =
       (p, Err (ECustom "Data too large to fit in a VarLen16. Must be less than 65536 bytes."))).
Proof.
  intros p l Hf.
  repeat split; intros H.
  - destruct H as [q H]. apply (packet_add_ok_inv TVarLen16) in H as [H _]; assumption.
  - eexists. apply (packet_add_ok TVarLen16); assumption.
  - destruct H as [q H]. apply (packet_add_ok_inv TVarLen32) in H as [H _]; assumption.
  - eexists. apply (packet_add_ok TVarLen32); assumption.
  - destruct H as [q H]. apply (packet_add_ok_inv TNested) in H as [H _]; assumption.
  - eexists. apply (packet_add_ok TNested); assumption.
  - unfold packet_add, packet_extend. cbn [ser]. unfold ser_varlen16. cbn [vl16]. fold (len l). destruct (N.ltb_spec 0xffff (len l)); [reflexivity|lia].
  - unfold packet_add, packet_extend. cbn [ser]. unfold ser_varlen32. cbn [vl32]. fold (len l). destruct (N.ltb_spec 0xffffffff (len l)); [reflexivity|lia].
  - unfold packet_add, packet_extend. cbn [ser]. unfold ser_nested, ser_varlen16. cbn [ser_seq bind vl16 nested_inner packet_bytes]. fold (len l).
    destruct (N.ltb_spec 0xffff (len l)); [reflexivity|lia].
Qed.
(** C16. The boundary value itself goes through, whatever follows. *)
Lemma p_C16_boundary_round_trip :
  forall (l later : list byte),
    len l = 65535%N ->
    exists q, packet_add TVarLen16 (Packet []) (VarLen16 l) = (q, Ok tt) /\
      snd (next_payload TVarLen16 (start_deserialize (Packet (packet_raw q ++ later)))) = Ok (VarLen16 l).
Proof.
  intros l later H.
  assert (R : in_range TVarLen16 (VarLen16 l)).
  { cbn. unfold vec_in_range. rewrite H. reflexivity. }
  assert (E : encodable TVarLen16 (VarLen16 l)) by (cbn [encodable vl16]; lia).
  eexists. split; [now apply packet_add_ok|].
  pose proof (p_C06_round_trip TVarLen16 (Packet []) _ _ later R eq_refl (packet_add_ok TVarLen16 (Packet []) _ R E)) as P.
  cbv zeta in P. cbn [packet_raw packet_bytes length app] in *. unfold start_deserialize.
  unfold packet_raw in P. cbn [packet_bytes length app] in P. rewrite P. reflexivity.
Qed.
Example ex_C16_boundary : len (repeat x00 (N.to_nat 65535)) = 65535%N.
Proof. unfold len. rewrite repeat_length. apply N2Nat.id. Qed.

(** C17. Reading a length-prefixed vector: exactly the announced bytes, or an error. *)
Lemma p_C17_varlen16_exact :
  forall (p : list byte) (i : nat),
    i <= length p ->
    next_payload TVarLen16 (Deserializer (Packet p) i) =
      let n := N.to_nat (u16_at p i) in
      if (i + 2 <=? length p) && (n <=? length p - (i + 2))
      then (Deserializer (Packet p) (i + 2 + n), Ok (VarLen16 (firstn n (skipn (i + 2) p))))
      else (Deserializer (Packet p) i, Err EEof).
Proof.
  intros p i Hi. rewrite next_payload_eq by assumption. cbn [de]. rewrite de_varlen16_blob.
  unfold de_blob. rewrite skipn_length. cbv zeta.
  destruct (Nat.ltb_spec (length p - i) 2), (Nat.leb_spec (i + 2) (length p)); try lia; [reflexivity|].
  rewrite u16_at_value by assumption. rewrite skipn_skipn', skipn_length. cbn [andb].
  set (n := be_value (firstn 2 (skipn i p))).
  destruct (N.ltb_spec (N.of_nat (length p - (i + 2))) n), (Nat.leb_spec (N.to_nat n) (length p - (i + 2)));
    try lia; [reflexivity|].
  cbn [bind layout vl16]. do 2 f_equal.
  rewrite app_length, firstn_length, skipn_length. cbn [u16_bytes bs map length]. lia.
Qed.
Lemma p_C17_varlen32_exact :
  forall (p : list byte) (i : nat),
    i <= length p ->
    next_payload TVarLen32 (Deserializer (Packet p) i) =
      let n := N.to_nat (u16_at p i * 65536 + u16_at p (i + 2)) in
      if (i + 4 <=? length p) && (n <=? length p - (i + 4))
      then (Deserializer (Packet p) (i + 4 + n), Ok (VarLen32 (firstn n (skipn (i + 4) p))))
      else (Deserializer (Packet p) i, Err EEof).
Proof.
  intros p i Hi. rewrite next_payload_eq by assumption. cbn [de]. rewrite de_varlen32_blob.
  unfold de_blob. rewrite skipn_length. cbv zeta.
  destruct (Nat.ltb_spec (length p - i) 4), (Nat.leb_spec (i + 4) (length p)); try lia; [reflexivity|].
  replace (u16_at p i * 65536 + u16_at p (i + 2))%N with (be_value (firstn 4 (skipn i p))).
  2:{ rewrite firstn_bytes_at by lia. cbn [seq map]. unfold be_value. cbn [fold_left].
      unfold u16_at, n_at. rewrite Nat.add_0_r. replace (i + 2 + 1) with (i + 3) by lia. lia. }
  rewrite skipn_skipn', skipn_length. cbn [andb].
  set (n := be_value (firstn 4 (skipn i p))).
  destruct (N.ltb_spec (N.of_nat (length p - (i + 4))) n), (Nat.leb_spec (N.to_nat n) (length p - (i + 4)));
    try lia; [reflexivity|].
  cbn [bind layout vl32]. do 2 f_equal.
  rewrite app_length, firstn_length, skipn_length. cbn [u32_bytes bs map length]. lia.
Qed.
Lemma p_C17_varlen64_exact :
  forall (p : list byte) (i : nat),
    i <= length p ->
    next_payload TVarLen64 (Deserializer (Packet p) i) =
      let n := N.to_nat (u64_at p i) in
      if (i + 8 <=? length p) && (n <=? length p - (i + 8))
      then (Deserializer (Packet p) (i + 8 + n), Ok (VarLen64 (firstn n (skipn (i + 8) p))))
      else (Deserializer (Packet p) i, Err EEof).
Proof.
  intros p i Hi. rewrite next_payload_eq by assumption. cbn [de]. rewrite de_varlen64_blob.
  unfold de_blob. rewrite skipn_length. cbv zeta.
  destruct (Nat.ltb_spec (length p - i) 8), (Nat.leb_spec (i + 8) (length p)); try lia; [reflexivity|].
  rewrite u64_at_value by assumption. rewrite skipn_skipn', skipn_length. cbn [andb].
  set (n := be_value (firstn 8 (skipn i p))).
  destruct (N.ltb_spec (N.of_nat (length p - (i + 8))) n), (Nat.leb_spec (N.to_nat n) (length p - (i + 8)));
    try lia; [reflexivity|].
  cbn [bind layout vl64]. do 2 f_equal.
  rewrite app_length, firstn_length, skipn_length. cbn [u64_bytes bs map length]. lia.
Qed.
Example ex_C17_short :
  snd (next_payload TVarLen16 (Deserializer (Packet (bs [0; 5; 1; 2; 3; 4]%N)) 0)) = Err EEof /\
  snd (next_payload TVarLen16 (Deserializer (Packet (bs [0; 4; 1; 2; 3; 4; 5]%N)) 0)) = Ok (VarLen16 (bs [1; 2; 3; 4]%N)).
Proof. now vm_compute. Qed.

(** C18. A payload with an IPv6 address anywhere is refused; one without (and within the size limits) is
    accepted. *)
Lemma p_C18_ipv6_refused :
  forall (t : ty) (p : packet) (v : tval t),
    in_range t v -> mentions_ipv6 t v ->
    exists m, packet_add t p v = (p, Err (ECustom m)).
Proof.
  intros t p v Hr H. apply packet_add_err; [assumption|].
  rewrite (proj1 encodable_iff_all). tauto.
Qed.
Lemma p_C18_ipv4_accepted :
  forall (t : ty) (p : packet) (v : tval t),
    in_range t v -> ~ mentions_ipv6 t v -> ~ oversized t v ->
    exists q, packet_add t p v = (q, Ok tt).
Proof.
  intros t p v Hr H1 H2. eexists. apply packet_add_ok; [assumption|].
  rewrite (proj1 encodable_iff_all). tauto.
Qed.
Example ex_C18_nested_ipv6 :
  let t := TStruct (FCons TU8 (FCons (TStruct (FCons TAddress FNil)) FNil)) in
  let v : tval t := (x01, ((V6 (repeat x00 16) 80%N 0%N 0%N, tt), tt)) in
  in_range t v /\ mentions_ipv6 t v.
Proof. cbn. repeat split; try reflexivity. right. left. left. intros []. Qed.

(** C19. [add] either appends or changes nothing, and never panics. *)
Lemma p_C19_add_all_or_nothing :
  forall (t : ty) (p q : packet) (v : tval t) (r : outcome unit),
    in_range t v ->
    packet_add t p v = (q, r) ->
    (r = Ok tt /\ exists more, packet_raw q = packet_raw p ++ more) \/
    ((exists e, r = Err e) /\ q = p).
Proof.
  intros t p q v r Hr H. destruct (encodable_dec t v Hr) as [He|He].
  - rewrite packet_add_ok in H by assumption. injection H as <- <-. left.
    split; [reflexivity|]. now exists (layout t v).
  - destruct (packet_add_err t p v Hr He) as [m E]. rewrite E in H. injection H as <- <-.
    right. split; [now eexists|reflexivity].
Qed.

(** C20. Whatever follows an introduction request is read as part of its extra bytes. *)
Lemma p_C20_request_absorbs_rest :
  forall (p q : packet) (v : introduction_request) (later : list byte),
    in_range TIntroductionRequest v ->
    packet_add TIntroductionRequest p v = (q, Ok tt) ->
    fits_memory (packet_raw q ++ later) ->
    let received := Packet (packet_raw q ++ later) in
    next_payload TIntroductionRequest {| pntr := received; index := length (packet_raw p) |} =
      ({| pntr := received; index := length (packet_raw received) |},
       Ok {| iq_destination_address := iq_destination_address v;
             iq_source_lan_address := iq_source_lan_address v;
             iq_source_wan_address := iq_source_wan_address v;
             iq_advice := iq_advice v; iq_connection_type := iq_connection_type v;
             iq_identifier := iq_identifier v;
             iq_extra_bytes := RawEnd (raw_bytes (iq_extra_bytes v) ++ later) |}).
Proof.
  intros p q v later Hr Ha Hf.
  apply packet_add_ok_inv in Ha as [He ->]; [|assumption].
  unfold packet_raw in *. cbn [packet_bytes] in *. cbv zeta.
  set (w := {| iq_destination_address := iq_destination_address v;
             iq_source_lan_address := iq_source_lan_address v;
             iq_source_wan_address := iq_source_wan_address v;
             iq_advice := iq_advice v; iq_connection_type := iq_connection_type v;
             iq_identifier := iq_identifier v;
             iq_extra_bytes := RawEnd (raw_bytes (iq_extra_bytes v) ++ later) |}).
  assert (E : (packet_bytes p ++ layout TIntroductionRequest v) ++ later =
              packet_bytes p ++ layout TIntroductionRequest w).
  { rewrite <- app_assoc. f_equal. cbn [layout]. unfold request_layout, w.
    cbn [iq_destination_address iq_source_lan_address iq_source_wan_address iq_advice
         iq_connection_type iq_identifier iq_extra_bytes raw_bytes]. now rewrite !app_assoc. }
  rewrite E in *.
  assert (Rw : in_range TIntroductionRequest w).
  { destruct Hr as (R1 & R2 & R3 & R4 & R5). repeat split; try assumption.
    unfold fits_memory, len in Hf. rewrite app_length in Hf. cbn [layout] in Hf.
    rewrite request_layout_length in Hf by exact He. unfold vec_in_range, len.
    change (iq_extra_bytes w) with (RawEnd (raw_bytes (iq_extra_bytes v) ++ later)) in *. lia. }
  rewrite (next_payload_round_end TIntroductionRequest _ w Rw He eq_refl).
  rewrite app_length. reflexivity.
Qed.
(** C20. Likewise for introduction responses (whose tunnel flag is lost, C12). *)
Lemma p_C20_response_absorbs_rest :
  forall (p q : packet) (v : introduction_response) (later : list byte),
    in_range TIntroductionResponse v ->
    packet_add TIntroductionResponse p v = (q, Ok tt) ->
    fits_memory (packet_raw q ++ later) ->
    let received := Packet (packet_raw q ++ later) in
    next_payload TIntroductionResponse {| pntr := received; index := length (packet_raw p) |} =
      ({| pntr := received; index := length (packet_raw received) |},
       Ok {| ir_destination_address := ir_destination_address v;
             ir_source_lan_address := ir_source_lan_address v;
             ir_source_wan_address := ir_source_wan_address v;
             ir_lan_introduction_address := ir_lan_introduction_address v;
             ir_wan_introduction_address := ir_wan_introduction_address v;
             ir_tunnel := false;
             ir_connection_type := ir_connection_type v;
             ir_identifier := ir_identifier v;
             ir_extra_bytes := RawEnd (raw_bytes (ir_extra_bytes v) ++ later) |}).
Proof.
  intros p q v later Hr Ha Hf.
  apply packet_add_ok_inv in Ha as [He ->]; [|assumption].
  unfold packet_raw in *. cbn [packet_bytes] in *. cbv zeta.
  set (w := {| ir_destination_address := ir_destination_address v;
             ir_source_lan_address := ir_source_lan_address v;
             ir_source_wan_address := ir_source_wan_address v;
             ir_lan_introduction_address := ir_lan_introduction_address v;
             ir_wan_introduction_address := ir_wan_introduction_address v;
             ir_tunnel := false;
             ir_connection_type := ir_connection_type v;
             ir_identifier := ir_identifier v;
             ir_extra_bytes := RawEnd (raw_bytes (ir_extra_bytes v) ++ later) |}).
  assert (E : (packet_bytes p ++ layout TIntroductionResponse v) ++ later =
              packet_bytes p ++ layout TIntroductionResponse w).
  { rewrite <- app_assoc. f_equal. cbn [layout]. unfold response_layout, w.
    cbn [ir_destination_address ir_source_lan_address ir_source_wan_address
         ir_lan_introduction_address ir_wan_introduction_address
         ir_connection_type ir_identifier ir_extra_bytes raw_bytes]. now rewrite !app_assoc. }
  rewrite E in *.
  assert (Rw : in_range TIntroductionResponse w).
  { destruct Hr as (R1 & R2 & R3 & R4 & R5 & R6 & R7). repeat split; try assumption.
    unfold fits_memory, len in Hf. rewrite app_length in Hf. cbn [layout] in Hf.
    rewrite response_layout_length in Hf by exact He. unfold vec_in_range, len.
    change (ir_extra_bytes w) with (RawEnd (raw_bytes (ir_extra_bytes v) ++ later)) in *. lia. }
  rewrite (next_payload_round_end TIntroductionResponse _ w Rw He eq_refl).
  rewrite app_length. reflexivity.
Qed.

(** ** Nesting *)

Lemma disclose_app l1 : forall l2 p q,
  disclose_all l1 p = Ok q -> disclose_all (l1 ++ l2) p = disclose_all l2 q.
Proof.
  induction l1 as [|i l1 IH]; intros l2 p q H.
  - cbn in H. now injection H as ->.
  - cbn [disclose_all app] in *. destruct (next_payload TNested _) as [d [n| |]]; try discriminate.
    now apply IH.
Qed.

(** C21. Packets nested to any depth are recovered exactly; each layer costs two bytes besides the
    bytes of the enclosing packet. *)
Lemma p_C21_nested_packets :
  forall (outers : list packet) (inner q : packet),
    fits_memory (packet_raw inner) -> Forall (fun o => fits_memory (packet_raw o)) outers ->
    enclose_all outers inner = Ok q ->
    disclose_all (rev (map (fun o => length (packet_raw o)) outers)) q = Ok inner /\
    length (packet_raw q) = length (packet_raw inner) + sum (map (fun o => length (packet_raw o) + 2) outers).
Proof.
  induction outers as [|o outers IH]; intros inner q Hf Ho H.
  - cbn in H. injection H as ->. cbn. split; [reflexivity|lia].
  - cbn [enclose_all] in H.
    destruct (packet_add TNested o (NestedPacket inner)) as [q1 [u|e|e]] eqn:A; try discriminate.
    inversion Ho as [|? ? Ho1 Ho2]; subst.
    assert (R : in_range TNested (NestedPacket inner)) by exact Hf.
    destruct u. destruct (packet_add_ok_inv TNested _ _ _ _ R A) as [E ->].
    assert (L : length (layout TNested (NestedPacket inner)) = length (packet_raw inner) + 2).
    { cbn [layout nested_inner]. rewrite app_length. cbn. unfold packet_raw. lia. }
    assert (D1 : disclose_all [length (packet_raw o)] (Packet (packet_bytes o ++ layout TNested (NestedPacket inner)))
                 = Ok inner).
    { cbn [disclose_all]. pose proof (p_C06_round_trip_raw_tail TNested o _ _ R eq_refl A) as P.
      rewrite P. reflexivity. }
    destruct outers as [|o2 outers'].
    + assert (Hq : q = Packet (packet_bytes o ++ layout TNested (NestedPacket inner))) by (cbn [enclose_all] in H; congruence). subst q. split; [exact D1|].
      unfold sum, packet_raw in *. cbn [packet_bytes map fold_right].
      rewrite app_length, L. lia.
    + assert (F2 : fits_memory (packet_raw (Packet (packet_bytes o ++ layout TNested (NestedPacket inner))))).
      { cbn [enclose_all] in H.
        destruct (packet_add TNested o2 _) as [q2 [u|e|e]] eqn:A2; try discriminate.
        unfold packet_add, packet_extend in A2. cbn [ser] in A2.
        unfold ser_nested in A2. cbn [ser_seq bind nested_inner packet_bytes] in A2.
        unfold ser_varlen16 in A2. cbn [vl16] in A2.
        match type of A2 with context [N.ltb ?a ?b] => destruct (N.ltb_spec a b) as [Hb|Hb] end;
          [discriminate|].
        unfold fits_memory, len, packet_raw. cbn [packet_bytes].
        change (2 ^ 64)%N with 18446744073709551616%N. lia. }
      destruct (IH _ _ F2 Ho2 H) as [I1 I2]. split.
      * cbn [map rev] in *. rewrite (disclose_app _ _ _ _ I1). exact D1.
      * rewrite I2. unfold sum, packet_raw in *. cbn [packet_bytes map fold_right].
        rewrite app_length, L. lia.
Qed.
(** C21. Enclosing works exactly up to 65535 bytes. *)
Lemma p_C21_enclose_iff :
  forall (outer inner : packet),
    fits_memory (packet_raw inner) ->
    ((exists q, enclose_all [outer] inner = Ok q) <-> (len (packet_raw inner) <= 65535)%N).
Proof.
  intros outer inner Hf. cbn [enclose_all].
  assert (R : in_range TNested (NestedPacket inner)) by exact Hf.
  destruct (encodable_dec TNested (NestedPacket inner) R) as [E|E].
  - rewrite (packet_add_ok TNested) by assumption. split; [intros _; exact E|eauto].
  - destruct (packet_add_err TNested outer _ R E) as [m ->]. split; [intros [q H]; discriminate|].
    intros H. contradiction.
Qed.
Example ex_C21_three_layers :
  exists q, enclose_all [Packet [x01]; Packet []; Packet [x02; x03]] (Packet [x09; x09]) = Ok q /\
            packet_raw q = bs [2; 3; 0; 7; 0; 5; 1; 0; 2; 9; 9]%N.
Proof. eexists. split; vm_compute; reflexivity. Qed.
