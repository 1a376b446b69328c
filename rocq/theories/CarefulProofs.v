(** * CarefulProofs: C134 *)
From Coq Require Import Strings.String.
From Verif Require Import Base Serde Codec Universe Spec SerdeFacts CodecFacts UniverseFacts Packet Client PacketFacts CodecProofs CursorProofs CryptoProofs PyProofs
  Community CommunitySpec CommunityProofs Network NetSpec NetworkProofs EndToEndSpec EndToEndProofs EdField EdCurve Ed25519 EdSpec Ed25519Proofs CarefulSpec.
Open Scope nat_scope.

Definition blob_at (p : list byte) (n : nat) : Prop := 25 <= length p /\ 25 + n <= length p.

Lemma verify_cases (C : ed25519) (p : list byte) : 23 <= length p ->
  let n := N.to_nat (u16_at p 23) in
  let d := {| pntr := Packet p; index := 23 |} in
  let magic := firstn 10 (skipn 25 p) = ascii "LibNaCLPK:" in
  let signed := length p - 64 in
  (blob_at p n /\ (n < 10 \/ n < 74 /\ magic) /\ verify_embedded C d = (d, Panic PSliceIndex)) \/
  ((~ blob_at p n \/ blob_at p n /\ 10 <= n /\ ~ magic) /\ verify_embedded C d = (d, Ok false)) \/
  (blob_at p n /\ 74 <= n /\ magic /\
   verify_embedded C d = ({| pntr := Packet (firstn signed p); index := 99 |},
     Ok (ring_verify C (firstn 32 (skipn 67 p)) (firstn signed p) (skipn signed p)))).
Proof.
  intros L n d magic signed.
  destruct (p_C23_auth_exact p 23 L) as [A1 A2]. cbn [Nat.add] in A1, A2. cbv zeta in A1, A2. fold n in A1, A2. fold d in A1, A2.
  fold (blob_at p n) in A1, A2. fold magic in A2.
  assert (DB : blob_at p n \/ ~ blob_at p n) by (unfold blob_at; lia).
  destruct DB as [B|B].
  2:{ right. left. split; [now left|]. unfold verify_embedded. now rewrite (A1 B). }
  destruct (A2 B) as (B1 & B2 & B3 & B4).
  assert (DM : magic \/ ~ magic) by (unfold magic; destruct (list_eq_dec Byte.byte_eq_dec (firstn 10 (skipn 25 p)) (ascii "LibNaCLPK:")); tauto).
  destruct (Nat.lt_ge_cases n 10) as [N1|N1].
  { left. split; [exact B|]. split; [now left|]. unfold verify_embedded. now rewrite (B1 N1). }
  destruct DM as [M|M].
  2:{ right. left. split; [right; exact (conj B (conj N1 M))|]. destruct (B2 N1 M) as [m E]. unfold verify_embedded. now rewrite E. }
  destruct (Nat.lt_ge_cases n 74) as [N2|N2].
  { left. split; [exact B|]. split; [now right|]. unfold verify_embedded. now rewrite B3. }
  right. right. split; [exact B|]. split; [exact N2|]. split; [exact M|].
  apply (p_C32_verify_uses_embedded_key C p 23); cbn [Nat.add]; try assumption. exact (proj2 B).
Qed.

Lemma handler_no_header C t act h p from : ~ (23 <= length p /\ byte_at p 0 = x00 /\ byte_at p 1 = x02) ->
  exists e, forall act', verifying_handler C t act h (start_deserialize (Packet p)) from = Err e /\ verifying_handler C t act' h (start_deserialize (Packet p)) from = Err e.
Proof.
  intros H. unfold verifying_handler, pop_header, start_deserialize.
  destruct (peek_header_err p 0) as [e ->]; [lia| |exists e; intros act'; split; reflexivity].
  cbn [skipn]. apply not_true_iff_false. intros E. apply H. change p with (skipn 0 p) in E. now apply header_prefix_ok_iff in E.
Qed.
Lemma handler_header C t act h p from : 23 <= length p /\ byte_at p 0 = x00 /\ byte_at p 1 = x02 ->
  verifying_handler C t act h (start_deserialize (Packet p)) from =
  (let (d, verdict) := verify_embedded C {| pntr := Packet p; index := 23 |} in
   let* genuine := verdict in
   if genuine : bool then let (_, read) := next_payload t d in let* x := read in act x else Ok tt).
Proof.
  intros H. unfold verifying_handler, pop_header, start_deserialize.
  rewrite peek_header_ok; [reflexivity|lia|]. apply header_prefix_ok_iff. exact H.
Qed.

(** C134: Such a handler panics, provided that what it does with a genuine payload does not, exactly on packets with a header and a complete key blob
    that is shorter than 10 bytes, or shorter than 74 with the right prefix, or that has 74 bytes or more and a signature that overlaps it and is nevertheless valid. *)
Lemma p_C134_panics_exactly :
  forall (C : ed25519) (t : ty) (act : tval t -> outcome unit) (h : header) (p : list byte) (from : address),
    has_auth t = false -> (forall x q, act x <> Panic q) ->
    let n := N.to_nat (u16_at p 23) in
    let signed := length p - 64 in
    (exists q, verifying_handler C t act h (start_deserialize (Packet p)) from = Panic q) <->
    (23 <= length p /\ byte_at p 0 = x00 /\ byte_at p 1 = x02) /\ (25 <= length p /\ 25 + n <= length p) /\
    (n < 10 \/
     n < 74 /\ firstn 10 (skipn 25 p) = ascii "LibNaCLPK:" \/
     74 <= n /\ firstn 10 (skipn 25 p) = ascii "LibNaCLPK:" /\ length p < 163 /\
       ring_verify C (firstn 32 (skipn 67 p)) (firstn signed p) (skipn signed p) = true).
Proof.
  intros C t act h p from HA NP n signed.
  assert (D : (23 <= length p /\ byte_at p 0 = x00 /\ byte_at p 1 = x02) \/ ~ (23 <= length p /\ byte_at p 0 = x00 /\ byte_at p 1 = x02)).
  { destruct (Nat.le_gt_cases 23 (length p)); [|right; lia].
    destruct (Byte.byte_eq_dec (byte_at p 0) x00); [|tauto]. destruct (Byte.byte_eq_dec (byte_at p 1) x02); tauto. }
  destruct D as [H|H].
  2:{ destruct (handler_no_header C t act h p from H) as [e E]. destruct (E act) as [-> _].
      split; [intros [q Q]; discriminate Q|tauto]. }
  rewrite (handler_header C t act h p from H).
  destruct (verify_cases C p (proj1 H)) as [(B & K & E)|[(B & E)|(B & N1 & M & E)]]; cbv zeta in B, E; fold n in B, E; fold signed in E; rewrite E; cbn [bind].
  - split; [intros _|intros _; now exists PSliceIndex]. split; [exact H|]. split; [exact B|]. destruct K as [K|K]; [now left|right; now left].
  - split; [intros [q Q]; discriminate Q|]. intros (_ & B' & K). exfalso. fold (blob_at p n) in B'.
    destruct B as [B|(_ & N1 & M)]; [now apply B|]. destruct K as [K|[[_ K]|(_ & K & _)]]; [lia|now apply M|now apply M].
  - fold n in N1. set (d := {| pntr := Packet (firstn signed p); index := 99 |}) in *.
    destruct (ring_verify C _ _ _) eqn:RV; cbn [bind].
    2:{ split; [intros [q Q]; discriminate Q|]. intros (_ & _ & K). exfalso. destruct K as [K|[[K _]|(_ & _ & _ & K)]]; [lia|lia|discriminate K]. }
    assert (ND : d <> {| pntr := Packet p; index := 23 |}) by (unfold d; intros X; injection X as X; discriminate).
    destruct (p_C35_reading_after_verify C p 23 d true t (proj1 H) E ND) as [R1 R2].
    destruct (Nat.lt_ge_cases (length p) 163) as [L|L].
    + specialize (R1 L) as [R1 _]. destruct (next_payload t d) as [d' x]. cbn [snd] in R1. subst x. cbn [bind].
      split; [intros _|intros _; now exists PSliceIndex]. split; [exact H|]. split; [exact B|]. right. right. exact (conj N1 (conj M (conj L eq_refl))).
    + specialize (R2 L) as [_ R2]. specialize (R2 HA). destruct (next_payload t d) as [d' x]. cbn [snd] in R2.
      split.
      * intros [q Q]. exfalso. destruct x as [x|e|x]; cbn [bind] in Q; [now apply (NP x q)|discriminate Q|now apply (R2 x)].
      * intros (_ & _ & K). exfalso. lia.
Qed.

(** ** Packets *)
Lemma overlapping_split m mt ekey : length m = 20 -> length ekey = 32 ->
  let p := overlapping m mt ekey in
  let msg := header_layout m mt ++ u16_bytes 74 ++ ascii "LibNaCLPK:" ++ ekey in
  length p = 131 /\ p = msg ++ neutral ++ repeat x00 32 /\ length msg = 67 /\
  (23 <= length p /\ byte_at p 0 = x00 /\ byte_at p 1 = x02) /\ u16_at p 23 = 74%N /\
  firstn 10 (skipn 25 p) = ascii "LibNaCLPK:" /\ firstn 32 (skipn 67 p) = neutral.
Proof.
  intros Lm Le p msg.
  assert (E : p = msg ++ neutral ++ repeat x00 32).
  { unfold p, msg, overlapping, auth_layout. cbn [bm_encryption_key_bin bm_public_key_bin]. fold neutral. now rewrite <- !app_assoc. }
  assert (L : length msg = 67).
  { unfold msg, header_layout. rewrite !app_length, Lm, Le. reflexivity. }
  assert (LP : length p = 131) by (rewrite E, !app_length, L; reflexivity).
  split; [exact LP|]. split; [exact E|]. split; [exact L|]. rewrite LP.
  do 20 (destruct m as [|? m]; [discriminate Lm|]). destruct m; [|discriminate Lm].
  split; [split; [lia|split; reflexivity]|]. split; [reflexivity|]. split; [reflexivity|].
  rewrite E. rewrite skipn_app, L, Nat.sub_diag. rewrite skipn_all2 by (rewrite L; lia). reflexivity.
Qed.

(** C134 (refuted): "Once [verify] has said yes, reading is safe": for every community and message type there is a packet of 131 bytes, made without any secret, which [verify] accepts
    and after which every read panics, because the signature overlaps the authentication payload. *)
Lemma p_C134_verified_then_panic_refuted :
  forall (from_pkcs8 : list byte -> option (list byte)) (m : list byte) (mt : byte) (ekey : list byte),
    length m = 20 -> length ekey = 32 ->
    exists d1 d2,
      pop_header (start_deserialize (Packet (overlapping m mt ekey))) = (d1, Ok (spec_header m mt)) /\
      verify_embedded (ring_ed25519 from_pkcs8) d1 = (d2, Ok true) /\
      (forall t, snd (next_payload t d2) = Panic PSliceIndex) /\ peek_header d2 = Panic PSliceIndex /\
      length (overlapping m mt ekey) = 131.
Proof.
  intros f m mt ekey Lm Le. destruct (overlapping_split m mt ekey Lm Le) as (L & E & Lmsg & H & U & M & K).
  set (p := overlapping m mt ekey) in *. cbv zeta in E, Lmsg. set (msg := header_layout m mt ++ _) in *.
  exists {| pntr := Packet p; index := 23 |}, {| pntr := Packet msg; index := 99 |}.
  assert (V : verify_embedded (ring_ed25519 f) {| pntr := Packet p; index := 23 |} = ({| pntr := Packet msg; index := 99 |}, Ok true)).
  { destruct (verify_cases (ring_ed25519 f) p (proj1 H)) as [(_ & X & _)|[(X & _)|(_ & _ & _ & X)]]; cbv zeta in X; rewrite ?U in X.
    - change (N.to_nat 74) with 74 in X. lia.
    - exfalso. destruct X as [X|(_ & _ & X)]; [|now apply X]. apply X. unfold blob_at. change (N.to_nat 74) with 74. lia.
    - rewrite X, K, L. change (131 - 64) with 67.
      assert (F : firstn 67 p = msg) by (rewrite E, <- Lmsg, firstn_app, Nat.sub_diag, firstn_all; apply app_nil_r).
      assert (S : skipn 67 p = neutral ++ repeat x00 32) by (rewrite E, <- Lmsg, skipn_app, Nat.sub_diag, skipn_all; reflexivity).
      rewrite F, S. do 2 f_equal. exact (neutral_verifies neutral msg (or_introl eq_refl)). }
  split; [|split; [exact V|]].
  - unfold pop_header, start_deserialize. rewrite peek_header_ok; [|lia|apply header_prefix_ok_iff; exact H].
    cbn [pntr index spec_header h_size Nat.add]. do 3 f_equal.
    + unfold p, overlapping, header_layout. do 20 (destruct m as [|? m]; [discriminate Lm|]). destruct m; [reflexivity|discriminate Lm].
    + unfold p, overlapping, header_layout. do 20 (destruct m as [|? m]; [discriminate Lm|]). destruct m; [reflexivity|discriminate Lm].
  - assert (ND : {| pntr := Packet msg; index := 99 |} <> {| pntr := Packet p; index := 23 |}) by (intros X; injection X as X; discriminate).
    split; [|split; [|exact L]].
    + intros t. apply (p_C35_reading_after_verify _ p 23 _ true t (proj1 H) V ND). lia.
    + apply (p_C35_reading_after_verify _ p 23 _ true TU8 (proj1 H) V ND). lia.
Qed.

Lemma overlapping_kills f t act h m mt ekey from : length m = 20 -> length ekey = 32 ->
  exists q, verifying_handler (ring_ed25519 f) t act h (start_deserialize (Packet (overlapping m mt ekey))) from = Panic q.
Proof.
  intros Lm Le. destruct (p_C134_verified_then_panic_refuted f m mt ekey Lm Le) as (d1 & d2 & P & V & R & _).
  exists PSliceIndex. unfold verifying_handler. rewrite P. cbn [bind]. rewrite V. cbn [bind].
  specialize (R t). destruct (next_payload t d2). cbn [snd] in R. now subst.
Qed.
Lemma empty_blob_kills C t act h m mt rest from : length m = 20 ->
  exists q, verifying_handler C t act h (start_deserialize (Packet (empty_blob m mt rest))) from = Panic q.
Proof.
  intros Lm. set (p := empty_blob m mt rest).
  assert (H : (23 <= length p /\ byte_at p 0 = x00 /\ byte_at p 1 = x02) /\ 25 <= length p /\ u16_at p 23 = 0%N).
  { unfold p, empty_blob, header_layout. do 20 (destruct m as [|? m]; [discriminate Lm|]). destruct m; [|discriminate Lm].
    cbn [app length]. split; [split; [lia|split; reflexivity]|]. split; [lia|reflexivity]. }
  destruct H as (H & L & U). exists PSliceIndex. rewrite (handler_header C t act h p from H).
  destruct (verify_cases C p (proj1 H)) as [(_ & _ & E)|[(X & _)|(_ & X & _)]]; cbv zeta in *.
  - rewrite E. reflexivity.
  - exfalso. rewrite U in X. change (N.to_nat 0) with 0 in X. unfold blob_at in X. lia.
  - exfalso. rewrite U in X. change (N.to_nat 0) with 0 in X. lia.
Qed.

(** ** The listener *)
Lemma nth_recv k : forall tr, k < recvs tr -> exists a b, tr = a ++ LRecv :: b /\ recvs a = k.
Proof.
  intros tr. revert k. induction tr as [|l tr IH]; intros k H; [cbn in H; lia|].
  assert (D : l = LRecv \/ recvs (l :: tr) = recvs tr) by (destruct l; auto).
  destruct D as [->|D].
  - destruct k as [|k].
    + exists [], tr. split; reflexivity.
    + cbn [recvs] in H. destruct (IH k ltac:(lia)) as (a & b & -> & E). exists (LRecv :: a), b. cbn [app recvs]. rewrite E. split; reflexivity.
  - rewrite D in H. destruct (IH k H) as (a & b & -> & E). exists (l :: a), b. split; [reflexivity|].
    destruct l; try exact E. discriminate || (cbn [recvs] in D; lia).
Qed.
Lemma last_call r : forall tr xs x, calls r tr = xs ++ [x] ->
  exists a b, tr = a ++ LCall r (fst x) (snd x) :: b /\ calls r a = xs /\ calls r b = [].
Proof.
  intros tr. induction tr as [|l tr IH] using rev_ind; intros xs x H; [destruct xs; discriminate H|].
  rewrite calls_app in H.
  assert (D : (exists p s, l = LCall r p s) \/ calls r [l] = []).
  { destruct l; try (right; reflexivity). cbn [calls]. destruct (Nat.eqb_spec r r0); [subst; left; eauto|right; reflexivity]. }
  destruct D as [(p & s & ->)|D].
  - cbn [calls] in H. rewrite Nat.eqb_refl in H. apply app_inj_tail in H as [<- <-].
    exists tr, []. repeat split.
  - rewrite D, app_nil_r in H. destruct (IH _ _ H) as (a & b & -> & Ea & Eb).
    exists a, (b ++ [l]). split; [now rewrite <- app_assoc|]. split; [exact Ea|]. now rewrite calls_app, Eb, D.
Qed.
Lemma no_call r b : calls r b = [] -> forall p a, ~ In (LCall r p a) b.
Proof.
  induction b as [|l b IH]; intros H p a I; [destruct I|]. destruct I as [->|I].
  - cbn [calls] in H. rewrite Nat.eqb_refl in H. discriminate H.
  - apply (IH) with (p := p) (a := a); [|exact I]. destruct l; try exact H. cbn [calls] in H. destruct (r =? r0); [discriminate H|exact H].
Qed.
Lemma a_return r b : 0 < returns r b -> exists x y, b = x ++ LReturn r :: y.
Proof.
  induction b as [|l b IH]; intros H; [cbn in H; lia|].
  assert (D : l = LReturn r \/ returns r (l :: b) = returns r b).
  { destruct l; auto. cbn [returns]. destruct (Nat.eqb_spec r r0); [subst; auto|right; reflexivity]. }
  destruct D as [->|D]; [exists [], b; reflexivity|]. rewrite D in H. destruct (IH H) as (x & y & ->). exists (l :: x), y. reflexivity.
Qed.
Lemma calls_prefix r a pkt src b : exists ys, calls r (a ++ LCall r pkt src :: b) = calls r a ++ (pkt, src) :: ys.
Proof. exists (calls r b). rewrite calls_app. cbn [calls]. now rewrite Nat.eqb_refl. Qed.

(** a datagram on which forwarding panics is the last one received *)
Lemma fatal_is_last cfg q0 tr s r cs xs x ys q :
  run cfg (net_init cfg q0) tr s -> r < nc_receivers cfg -> forwards_to cs r tr ->
  received q0 tr = xs ++ x :: ys ->
  snd (forward_message (registered cs) (Packet (fst (packet_of cfg x))) (snd x)) = Panic q -> ys = [].
Proof.
  intros R Hr F E P. destruct ys as [|y ys]; [reflexivity|exfalso].
  pose proof (i_count _ _ _ _ (inv_run _ _ _ _ R)) as Cn. rewrite E, app_length in Cn. cbn [length] in Cn.
  destruct (nth_recv (S (length xs)) tr ltac:(lia)) as (a & b & Et & Ra).
  assert (exists s', run cfg (net_init cfg q0) (a ++ [LRecv]) s') as [s' R'].
  { rewrite Et in R. change (a ++ LRecv :: b) with (a ++ ([LRecv] ++ b)) in R. rewrite app_assoc in R.
    apply run_app_inv in R as (s' & R' & _). now exists s'. }
  destruct (p_C50_receive_waits_for_receivers _ _ _ _ R' r Hr) as [C1 C2].
  apply run_snoc_inv in R' as (s1 & R1 & _).
  (* what the receiver had been called with *)
  assert (Rc : received q0 a = xs ++ [x]).
  { assert (Pre : exists z, q0 ++ arrivals tr = (q0 ++ arrivals a) ++ z).
    { exists (arrivals (LRecv :: b)). now rewrite Et, arrivals_app, app_assoc. }
    destruct Pre as [z Pre]. pose proof (i_count _ _ _ _ (inv_run _ _ _ _ R1)) as Ca.
    assert (La : length xs + 1 <= length (q0 ++ arrivals a)).
    { unfold received in Ca. rewrite firstn_length in Ca. lia. }
    assert (Fx : firstn (length xs + 1) (received q0 tr) = xs ++ [x]).
    { rewrite E. change (x :: y :: ys) with ([x] ++ (y :: ys)). rewrite app_assoc. replace (length xs + 1) with (length (xs ++ [x])) by (rewrite app_length; reflexivity).
      rewrite firstn_app, Nat.sub_diag, firstn_all, firstn_O. apply app_nil_r. }
    rewrite <- Fx. unfold received. rewrite firstn_firstn, Pre, Nat.min_l by (rewrite Et, recvs_app; cbn [recvs]; lia).
    rewrite (firstn_app (length xs + 1) (q0 ++ arrivals a) z). replace (length xs + 1 - length (q0 ++ arrivals a)) with 0 by lia.
    rewrite firstn_O, app_nil_r, Ra. f_equal. lia. }
  destruct (proj1 (p_C48_exactly_once_in_order _ _ _ _ r R1) Hr) as (missing & M & _ & _).
  assert (missing = []) as ->.
  { apply (f_equal (@length _)) in M. rewrite map_length, app_length, Rc, C1, Ra, app_length in M. cbn [length] in M.
    destruct missing; [reflexivity|cbn [length] in M; lia]. }
  rewrite app_nil_r, Rc, map_app in M. symmetry in M. cbn [map] in M.
  destruct (last_call r a _ _ M) as (a1 & b1 & Ea & Ca & Cb). clear M.
  (* the returns: one more than before the last call *)
  assert (exists s', run cfg (net_init cfg q0) (a1 ++ [LCall r (fst (packet_of cfg x)) (snd (packet_of cfg x))]) s') as [s2 R2].
  { rewrite Ea in R1. change (a1 ++ ?l :: b1) with (a1 ++ ([l] ++ b1)) in R1. rewrite app_assoc in R1.
    apply run_app_inv in R1 as (s3 & R3 & _). now exists s3. }
  destruct (p_C50_one_datagram_at_a_time _ _ _ _ _ _ _ R2) as (_ & E1 & _).
  assert (E2 : returns r a = S (length xs)) by (rewrite C2; exact Ra).
  rewrite Ea, returns_app, E1, Ca, map_length in E2. cbn [returns] in E2.
  destruct (a_return r b1 ltac:(lia)) as (u & v & Eb).
  assert (Et' : tr = a1 ++ LCall r (fst (packet_of cfg x)) (snd (packet_of cfg x)) :: u ++ LReturn r :: v ++ LRecv :: b).
  { rewrite Et, Ea, Eb. repeat (rewrite <- app_assoc; cbn [app]). reflexivity. }
  refine (proj1 (F _ _ _ _ _ _ Et' _) eq_refl q P).
  apply no_call. rewrite Eb, calls_app in Cb. now apply app_eq_nil in Cb as [Cb _].
Qed.

Lemma forward_to c cs mt rest from : is_registered c cs -> length (c_mid c) = 20 -> deprecated (N_of_byte mt) = false ->
  snd (forward_message (registered cs) (Packet (header_layout (c_mid c) mt ++ rest)) from) =
  c_on_receive c (spec_header (c_mid c) mt) (start_deserialize (Packet (header_layout (c_mid c) mt ++ rest))) from.
Proof.
  intros (cs1 & cs2 & -> & F) L D. rewrite p_C43_handler_arguments; try assumption; reflexivity.
Qed.

(** C134 (refuted): "A community that verifies before it reads cannot be stopped by strangers": behind a receiver that hands packets to communities, the first
    datagram of one of these two kinds - 25 bytes suffice, anybody can make them - is the last one the listener ever receives. *)
Lemma p_C134_one_datagram_stops_the_listener_refuted :
  forall (cfg : net_config) (q0 : list datagram) (tr : list label) (s : net_state) (r : nat) (cs : list community) (c : community)
         (C : ed25519) (t : ty) (act : tval t -> outcome unit) (mt : byte) (xs ys : list datagram) (data : list byte) (src : address),
    run cfg (net_init cfg q0) tr s -> r < nc_receivers cfg -> forwards_to cs r tr ->
    is_registered c cs -> length (c_mid c) = 20 -> c_on_receive c = verifying_handler C t act -> deprecated (N_of_byte mt) = false ->
    received q0 tr = xs ++ (data, src) :: ys ->
    (exists rest, firstn (nc_buffersize cfg) data = empty_blob (c_mid c) mt rest) \/
    (exists from_pkcs8 ekey, C = ring_ed25519 from_pkcs8 /\ length ekey = 32 /\
       firstn (nc_buffersize cfg) data = overlapping (c_mid c) mt ekey) ->
    ys = [].
Proof.
  intros cfg q0 tr s r cs c C t act mt xs ys data src R Hr F Reg L H D E K.
  assert (exists q, snd (forward_message (registered cs) (Packet (fst (packet_of cfg (data, src)))) src) = Panic q) as [q P].
  { cbn [packet_of fst]. destruct K as [[rest ->]|(f & ekey & -> & Le & ->)].
    - unfold empty_blob. rewrite (forward_to c cs) by assumption. rewrite H. now apply empty_blob_kills.
    - unfold overlapping. rewrite (forward_to c cs) by assumption. rewrite H. now apply overlapping_kills. }
  exact (fatal_is_last _ _ _ _ _ _ _ _ _ _ R Hr F E P).
Qed.

(** C134 (refuted): "[verify] should be in most cases the first method to be called when receiving a packet" (serialization/mod.rs:96). A handler is given the packet with the header still in front of the cursor, and
    on every packet that any handler is ever given, [verify] as the first call panics: it takes the 00 02 of the header for the length of a key blob. *)
Lemma p_C134_verify_first_panics_refuted :
  forall (C : ed25519) (cs : list community) (p : list byte) (from : address) (tag : nat) (h : header) (d : deserializer) (a : address),
    In (Handled tag h d a) (fst (forward_message (registered cs) (Packet p) from)) ->
    verify_embedded C d = (d, Panic PSliceIndex).
Proof.
  intros C cs p from tag h d a I.
  destruct (forward_handled cs (p, from) tag h d a I) as (-> & mt & rest & E & _ & L). cbn [fst] in *.
  set (m := firstn 20 (skipn 2 p)) in *. rewrite E. clear I E. clearbody m.
  set (q := header_layout m mt ++ rest).
  assert (H : 23 <= length q /\ u16_at q 0 = 2%N).
  { unfold q, header_layout. do 20 (destruct m as [|? m]; [discriminate L|]). destruct m; [|discriminate L]. split; [cbn [app length]; lia|reflexivity]. }
  destruct H as [H U]. destruct (p_C23_auth_exact q 0 (Nat.le_0_l _)) as [_ A]. cbv zeta in A. rewrite U in A.
  change (N.to_nat 2) with 2 in A. destruct A as (A & _); [lia|]. unfold verify_embedded. rewrite A by lia. reflexivity.
Qed.

(** C134: The guard helps: whatever arrives, such a handler does not panic. *)
Lemma p_C134_guarded_never_panics :
  forall (C : ed25519) (t : ty) (act : tval t -> outcome unit) (h : header) (p : list byte) (from : address) (q : panic),
    has_auth t = false -> (forall x q, act x <> Panic q) ->
    guarded_handler C t act h (start_deserialize (Packet p)) from <> Panic q.
Proof.
  intros C t act h p from q HA NP X. unfold guarded_handler in X. cbn [start_deserialize pntr packet_raw packet_bytes] in X.
  change (packet_raw (Packet p)) with p in X.
  destruct (worth_verifying p) eqn:G; [|discriminate X]. apply andb_true_iff in G as [G1 G2].
  apply Nat.leb_le in G1. apply Nat.leb_le in G2.
  destruct (proj1 (p_C134_panics_exactly C t act h p from HA NP)) as (_ & _ & K); [now exists q|].
  destruct K as [K|[[K _]|(_ & _ & K & _)]]; lia.
Qed.

(** C134: And it costs nothing: on a packet that it does not let through, the handler without it would not have got as far as acting on a payload (the result does not depend on what it would do). *)
Lemma p_C134_guard_loses_nothing :
  forall (C : ed25519) (t : ty) (h : header) (p : list byte) (from : address),
    worth_verifying p = false ->
    exists result, forall act, verifying_handler C t act h (start_deserialize (Packet p)) from = result.
Proof.
  intros C t h p from G.
  assert (D : (23 <= length p /\ byte_at p 0 = x00 /\ byte_at p 1 = x02) \/ ~ (23 <= length p /\ byte_at p 0 = x00 /\ byte_at p 1 = x02)).
  { destruct (Nat.le_gt_cases 23 (length p)); [|right; lia].
    destruct (Byte.byte_eq_dec (byte_at p 0) x00); [|tauto]. destruct (Byte.byte_eq_dec (byte_at p 1) x02); tauto. }
  destruct D as [H|H].
  2:{ destruct (handler_no_header C t (fun _ => Ok tt) h p from H) as [e E]. exists (Err e). intros act. apply (E act). }
  destruct (verify_cases C p (proj1 H)) as [(_ & _ & E)|[(_ & E)|(_ & N1 & _ & E)]]; cbv zeta in E.
  - exists (Panic PSliceIndex). intros act. rewrite (handler_header C t act h p from H), E. reflexivity.
  - exists (Ok tt). intros act. rewrite (handler_header C t act h p from H), E. reflexivity.
  - destruct (ring_verify C _ _ _) eqn:V.
    2:{ exists (Ok tt). intros act. rewrite (handler_header C t act h p from H), E. reflexivity. }
    assert (L : length p < 163).
    { unfold worth_verifying in G. apply andb_false_iff in G as [G|G]; apply Nat.leb_gt in G; [exact G|lia]. }
    exists (Panic PSliceIndex). intros act. rewrite (handler_header C t act h p from H), E. cbn [bind].
    assert (ND : {| pntr := Packet (firstn (length p - 64) p); index := 99 |} <> {| pntr := Packet p; index := 23 |}) by (intros X; injection X as X; discriminate).
    destruct (p_C35_reading_after_verify C p 23 _ true t (proj1 H) E ND) as [R1 _]. specialize (R1 L) as [R1 _].
    destruct (next_payload t _) as [d' x]. cbn [snd] in R1. now subst.
Qed.

(** C134: A listener whose communities all have handlers that never panic never loses a receiver. *)
Lemma p_C134_guarded_listener_survives :
  forall (cfg : net_config) (q0 : list datagram) (tr : list label) (s : net_state) (r : nat) (cs : list community),
    run cfg (net_init cfg q0) tr s -> r < nc_receivers cfg -> forwards_to cs r tr ->
    (forall c h p from q, In c cs -> c_on_receive c h (start_deserialize (Packet p)) from <> Panic q) ->
    panics r tr = 0.
Proof.
  intros cfg q0 tr s r cs R Hr F NP. revert s R.
  induction tr as [|l tr IH] using rev_ind; intros s R; [reflexivity|].
  pose proof (run_snoc_inv _ _ _ _ _ R) as (s1 & R1 & S).
  assert (F' : forwards_to cs r tr).
  { intros a b d p x l' E. apply (F a b (d ++ [l]) p x l'). rewrite E, <- app_assoc. cbn [app]. now rewrite <- app_assoc. }
  rewrite panics_app, (IH F' s1 R1). cbn [Nat.add].
  destruct l; try reflexivity. cbn [panics]. destruct (Nat.eqb_spec r r0) as [<-|]; [exfalso|reflexivity].
  (* it was called *)
  inversion S as [| | | | | | | | | |s0 k pkt src pending before r0 after pan Hpc Es| |]; subst.
  pose proof (i_pc _ _ _ _ (inv_run _ _ _ _ R1)) as I. unfold inv_pc in I. rewrite Hpc in I.
  destruct I as (done & _ & _ & _ & I & _). destruct (I r Hr) as (Ic & Ir & Ile).
  assert (NE : calls r tr <> []).
  { intros E. rewrite E in Ile. cbn [length] in Ile. rewrite E in Ic. symmetry in Ic. apply app_eq_nil in Ic as [-> Ic]. cbn [length] in Ir.
    destruct (countn r pending =? 0) eqn:Z; [discriminate Ic|]. apply Nat.eqb_neq in Z.
    rewrite countn_app in Ir. rewrite countn_app in Ir. rewrite countn_cons, Nat.eqb_refl in Ir. lia. }
  destruct (exists_last NE) as (ys & y & Ey). destruct (last_call r tr _ _ Ey) as (a & b & Et & _ & Cb).
  destruct (F a b [] (fst y) (snd y) (LPanic r)) as [_ X]; [now rewrite Et, <- app_assoc|now apply no_call|].
  destruct (X eq_refl) as [q P]. destruct (p_C59_forwarding_never_panics _ _ _ _ P) as (c & h & d & Hc & Hp & He).
  destruct (forward_handled cs y (c_tag c) h d (snd y)) as [-> _]; [unfold forward; rewrite He; now left|].
  exact (NP _ _ _ _ _ Hc Hp).
Qed.

Fixpoint ty_dec (a b : ty) {struct a} : {a = b} + {a <> b}
with tys_dec (a b : tys) {struct a} : {a = b} + {a <> b}.
Proof.
  - destruct a, b; try (left; reflexivity); try (right; discriminate).
    all: match goal with
         | |- {?f ?x = ?f ?y} + {_} => first [destruct (ty_dec x y) as [->|N] | destruct (tys_dec x y) as [->|N]];
             [left; reflexivity|right; intros E; injection E; exact N]
         end.
  - destruct a as [|t r], b as [|t' r']; try (left; reflexivity); try (right; discriminate).
    destruct (ty_dec t t') as [->|N]; [|right; intros E; injection E as E _; now apply N].
    destruct (tys_dec r r') as [->|N]; [left; reflexivity|right; intros E; injection E; exact N].
Defined.

(** C134: Genuine messages pass the guard: a handler with it acts on the payload of every message that was built and signed as the documentation says. *)
Lemma p_C134_guarded_still_works :
  forall (C : ed25519), ed25519_laws C ->
  forall (k : keypair C) (pk ekey mid : list byte) (mt : byte) (t : ty) (v : tval t) (p0 unsigned signed : packet)
         (act : tval t -> outcome unit) (h : header) (from : address),
    public_key k = Ok pk -> length ekey = 32 -> length mid = 20 -> in_range t v -> raw_at_end_only t = true ->
    packet_new (py_ipv8_header mid mt) = Ok p0 ->
    add_all p0 [existT tval TBinMember (BinMember pk ekey); existT tval t v] = Ok unsigned ->
    packet_sign unsigned k = Ok signed ->
    guarded_handler C t act h (start_deserialize signed) from = act (transmitted t v).
Proof.
  intros C LW k pk ekey mid mt t v p0 u sg act h from Hk Le Lm Rg Re H0 H1 H2.
  destruct (p_C31_signed_message_end_to_end C LW k pk ekey mid mt [existT tval t v] p0 u sg) as (d1 & d2 & d3 & P & V & R & _); try assumption.
  { constructor; [exact Rg|constructor]. }
  assert (E : forall act, verifying_handler C t act h (start_deserialize sg) from = act (transmitted t v)).
  { intros act0. unfold verifying_handler. rewrite P. cbn [bind]. rewrite V. cbn [bind].
    cbn [map read_all] in R. change (ptype (existT tval t v)) with t in R. destruct (next_payload t d2) as [d4 [x|e|q]]; [|discriminate R|discriminate R].
    injection R as _ R. cbn [bind]. f_equal.
    unfold transmitted_payload in R. cbn [projT1 projT2] in R. now apply (Eqdep_dec.inj_pair2_eq_dec ty ty_dec tval) in R. }
  unfold guarded_handler. destruct (worth_verifying (packet_raw (pntr (start_deserialize sg)))) eqn:G; [apply E|].
  destruct sg as [sg]. cbn [start_deserialize pntr packet_raw packet_bytes] in G.
  destruct (p_C134_guard_loses_nothing C t h sg from G) as [x X].
  pose proof (X (fun _ => Ok tt)) as X1. pose proof (X (fun _ => Err EEof)) as X2. rewrite E in X1, X2. rewrite <- X2 in X1. discriminate X1.
Qed.

(** ** Examples *)
Definition e_community (guard : bool) : community :=
  {| c_tag := 7; c_mid := repeat x2a 20;
     c_on_receive := (if guard then guarded_handler toy TU8 (fun _ => Ok tt) else verifying_handler toy TU8 (fun _ => Ok tt)) |}.
Definition e_killer : list byte := empty_blob (repeat x2a 20) x01 [].
Definition e_net : net_config := {| nc_buffersize := 2048; nc_has_timeout := false; nc_receivers := 1 |}.
Definition e_trace (l : label) : list label :=
  [LArrive (e_killer, ex_src); LPoll 1; LRecv; LCall 0 e_killer ex_src; l; LScopeEnd; LArrive ex_d2].

Lemma e_forwards guard l : (l = LPanic 0 /\ guard = false) \/ (l = LReturn 0 /\ guard = true) -> forwards_to [e_community guard] 0 (e_trace l).
Proof.
  intros G b d a pkt src l' E N. unfold e_trace in E.
  do 3 (destruct b as [|? b]; [discriminate E|injection E as _ E]).
  destruct b as [|? b].
  - injection E as E1 E2 E. subst pkt src.
    assert (R : snd (forward_message (registered [e_community guard]) (Packet e_killer) ex_src) = if guard then Ok tt else Panic PSliceIndex).
    { destruct guard; vm_compute; reflexivity. }
    cbv zeta. rewrite R. destruct G as [[-> ->]|[-> ->]].
    + do 3 (destruct d as [|? d]; [injection E as E1 E; subst l'; split; intros Q; try discriminate Q; exists PSliceIndex; reflexivity|injection E as _ E]).
      destruct d; discriminate E.
    + do 3 (destruct d as [|? d]; [injection E as E1 E; subst l'; split; intros Q; try discriminate Q; intros q; discriminate|injection E as _ E]).
      destruct d; discriminate E.
  - exfalso. injection E as _ E. destruct G as [[-> _]|[-> _]];
    do 3 (destruct b as [|? b]; [discriminate E|injection E as _ E]); destruct b; discriminate E.
Qed.

(** the second datagram arrives, and nobody will ever read it *)
Example ex_C134_stopped :
  exists s, run e_net (net_init e_net []) (e_trace (LPanic 0)) s /\ stopped s /\
    forwards_to [e_community false] 0 (e_trace (LPanic 0)) /\ is_registered (e_community false) [e_community false] /\
    received [] (e_trace (LPanic 0)) = [] ++ (e_killer, ex_src) :: [] /\
    firstn (nc_buffersize e_net) e_killer = empty_blob (c_mid (e_community false)) x01 [] /\ length e_killer = 25.
Proof.
  eexists. split.
  { unfold e_trace. eapply run_cons; [apply step_arrive|]. eapply run_cons; [apply step_poll_ready; reflexivity|].
    eapply run_cons; [eapply (step_recv _ _ 0 _ _ []); reflexivity|]. cbn.
    eapply run_cons; [eapply (step_call e_net _ _ _ _ [] 0 []); reflexivity|]. cbn.
    eapply run_cons; [eapply (step_panic e_net _ _ _ _ _ [] 0 []); reflexivity|]. cbn.
    eapply run_cons; [eapply step_scope_panic; reflexivity|]. cbn.
    apply run_one. apply step_arrive. }
  split; [eexists; reflexivity|]. split; [apply e_forwards; auto|].
  split; [exists [], []; split; [reflexivity|constructor]|]. repeat split.
Qed.

(** with the guard the same datagram does no harm *)
Example ex_C134_survives :
  exists s, run e_net (net_init e_net []) (e_trace (LReturn 0)) s /\ between_datagrams s /\
    forwards_to [e_community true] 0 (e_trace (LReturn 0)) /\
    (forall c h p from q, In c [e_community true] -> c_on_receive c h (start_deserialize (Packet p)) from <> Panic q).
Proof.
  eexists. split.
  { unfold e_trace. eapply run_cons; [apply step_arrive|]. eapply run_cons; [apply step_poll_ready; reflexivity|].
    eapply run_cons; [eapply (step_recv _ _ 0 _ _ []); reflexivity|]. cbn.
    eapply run_cons; [eapply (step_call e_net _ _ _ _ [] 0 []); reflexivity|]. cbn.
    eapply run_cons; [eapply (step_return e_net _ _ _ _ _ [] 0 []); reflexivity|]. cbn.
    eapply run_cons; [eapply step_scope_end; reflexivity|]. cbn.
    apply run_one. apply step_arrive. }
  split; [exact I|]. split; [apply e_forwards; auto|].
  intros c h p from q [<-|[]]. cbn [c_on_receive e_community].
  apply p_C134_guarded_never_panics; [reflexivity|discriminate].
Qed.

(** a genuine message *)
Example ex_C134_genuine :
  exists p0 unsigned signed,
    packet_new (py_ipv8_header (repeat x2a 20) x01) = Ok p0 /\
    add_all p0 [existT tval TBinMember (BinMember (repeat x05 32) (repeat x06 32)); existT tval TU8 x09] = Ok unsigned /\
    packet_sign (C := toy) unsigned (repeat x05 32) = Ok signed /\ public_key (C := toy) (repeat x05 32) = Ok (repeat x05 32) /\
    guarded_handler toy TU8 (fun x => if Byte.eqb x x09 then Err EEof else Ok tt) (spec_header (repeat x2a 20) x01) (start_deserialize signed) ex_src = Err EEof.
Proof. do 3 eexists. repeat (split; [vm_compute; reflexivity|]). vm_compute. reflexivity. Qed.

(** a packet that reaches a handler *)
Example ex_C134_handled :
  exists h d, fst (forward_message (registered [e_community true]) (Packet (e_killer ++ [x09])) ex_src) = [Handled 7 h d ex_src].
Proof. do 2 eexists. vm_compute. reflexivity. Qed.
