(** * CryptoProofs: C28-C38, C58 *)
From Coq Require Import Strings.String.
From Verif Require Import Base Serde Codec Universe Spec SerdeFacts CodecFacts UniverseFacts Packet Client PacketFacts CodecProofs CursorProofs.
Open Scope nat_scope.

(** ** A toy instance, to show that [ed25519_laws] can be met *)
Definition pad32 (l : list byte) : list byte := firstn 32 (l ++ repeat x00 32).
Definition toy : ed25519 := {|
  ring_keypair := list byte;
  ring_public_key := pad32;
  ring_sign := fun k m => pad32 k ++ pad32 m;
  ring_verify := fun pk m s => bytes_eqb s (pk ++ pad32 m);
  ring_from_seed_unchecked := fun s => if length s =? 32 then Some s else None;
  ring_from_seed_and_public_key := fun s pk =>
    if length s =? 32 then (if bytes_eqb pk (pad32 s) then Some s else None) else None;
  ring_from_pkcs8 := fun b => Some b |}.
Lemma pad32_length l : length (pad32 l) = 32.
Proof. unfold pad32. rewrite firstn_length, app_length, repeat_length. lia. Qed.
Lemma toy_laws : ed25519_laws toy.
Proof.
  constructor; cbn [toy ring_public_key ring_sign ring_verify ring_from_seed_unchecked ring_from_seed_and_public_key].
  - apply pad32_length.
  - intros k m. now rewrite app_length, !pad32_length.
  - intros k m. now apply bytes_eqb_eq.
  - intros s ->. now exists s.
  - intros s pk. now destruct (length s =? 32).
Qed.

Lemma sign_ok C (L : ed25519_laws C) k p :
  packet_sign p k = Ok (Packet (packet_bytes p ++ ring_sign C k (packet_bytes p))).
Proof.
  unfold packet_sign, sign_packet, sign.
  rewrite layout_verified_ok by apply (ring_sign_length C L).
  cbn [ok_or bind]. unfold packet_extend, ser_signature.
  unfold bincode_serialize. cbn [bind sig_bytes].
  match goal with |- context [bincode_write (EvTuple ?x :: ?l)] =>
    change (bincode_write (EvTuple x :: l)) with (bincode_write l) end.
  rewrite bincode_write_u8s. reflexivity.
Qed.
Lemma public_key_ok C (L : ed25519_laws C) k : public_key k = Ok (ring_public_key C k).
Proof. unfold public_key. now rewrite layout_verified_ok by apply (ring_public_key_length C L). Qed.

(** C28. [Packet::sign] always succeeds and appends exactly the 64 signature bytes over all it holds. *)
Lemma p_C28_sign_appends :
  forall (C : ed25519), ed25519_laws C ->
  forall (k : keypair C) (p : packet),
    exists q sig, packet_sign p k = Ok q /\ packet_raw q = packet_raw p ++ sig /\
      length sig = 64 /\ sig = ring_sign C k (packet_raw p) /\
      sign_packet k p = Ok (Signature sig).
Proof.
  intros C L k p. do 2 eexists. split; [now apply sign_ok|]. split; [reflexivity|].
  split; [apply (ring_sign_length C L)|]. split; [reflexivity|].
  unfold sign_packet, sign. now rewrite layout_verified_ok by apply (ring_sign_length C L).
Qed.
Example ex_C28_laws_satisfiable : exists C, ed25519_laws C /\ inhabited (keypair C).
Proof. exists toy. split; [apply toy_laws|]. now repeat constructor. Qed.

(** C29. Verification of a signed packet under the signer's key succeeds, from every cursor, and gives
    the unsigned packet back. *)
Lemma p_C29_sign_then_verify :
  forall (C : ed25519), ed25519_laws C ->
  forall (k : keypair C) (pk : list byte) (p q : packet) (i : nat),
    public_key k = Ok pk -> packet_sign p k = Ok q ->
    verify_with C pk {| pntr := q; index := i |} = ({| pntr := p; index := i |}, Ok true).
Proof.
  intros C L k pk p q i Hk Hq. rewrite (public_key_ok C L) in Hk. injection Hk as <-.
  rewrite (sign_ok C L) in Hq. injection Hq as <-.
  unfold verify_with. cbn [pntr packet_bytes index].
  rewrite app_length, (ring_sign_length C L). unfold ED25519_SIGNATURE_BYTES.
  destruct (Nat.ltb_spec (length (packet_bytes p) + 64) 64); [lia|].
  replace (length (packet_bytes p) + 64 - 64) with (length (packet_bytes p)) by lia.
  rewrite firstn_app_exact, skipn_app_exact by reflexivity.
  unfold verify_raw, verify. rewrite (ring_verify_sign C L). now destruct p.
Qed.
Example ex_C29_toy :
  exists pk q, public_key (C := toy) (repeat x05 32) = Ok pk /\
               packet_sign (C := toy) (Packet [x01; x02]) (repeat x05 32) = Ok q /\ length (packet_raw q) = 66.
Proof. do 2 eexists. split; [vm_compute; reflexivity|]. split; vm_compute; reflexivity. Qed.

Lemma verify_with_eq C pk p i :
  64 <= length p ->
  verify_with C pk {| pntr := Packet p; index := i |} =
    ({| pntr := Packet (firstn (length p - 64) p); index := i |},
     Ok (ring_verify C pk (firstn (length p - 64) p) (skipn (length p - 64) p))).
Proof.
  intros H. unfold verify_with, ED25519_SIGNATURE_BYTES. cbn [pntr packet_bytes index].
  destruct (Nat.ltb_spec (length p) 64); [lia|reflexivity].
Qed.
Lemma verify_with_short C pk p i :
  length p < 64 ->
  verify_with C pk {| pntr := Packet p; index := i |} = ({| pntr := Packet p; index := i |}, Panic PSubOverflow).
Proof.
  intros H. unfold verify_with, ED25519_SIGNATURE_BYTES. cbn [pntr packet_bytes index].
  destruct (Nat.ltb_spec (length p) 64); [reflexivity|lia].
Qed.

(** C30. [verify_with] accepts exactly the packets of the form message ++ signature, the signature being
    64 bytes valid for the message under the given key. The cursor plays no role. *)
Lemma p_C30_accepts_iff :
  forall (C : ed25519) (pk p : list byte) (i : nat),
    (snd (verify_with C pk {| pntr := Packet p; index := i |}) = Ok true <->
     exists msg sig, p = msg ++ sig /\ length sig = 64 /\ ring_verify C pk msg sig = true) /\
    (64 <= length p ->
     snd (verify_with C pk {| pntr := Packet p; index := i |}) = Ok true \/
     snd (verify_with C pk {| pntr := Packet p; index := i |}) = Ok false).
Proof.
  intros C pk p i. split.
  - split.
    + intros H. destruct (Nat.lt_ge_cases (length p) 64) as [L|L].
      { rewrite verify_with_short in H by assumption. discriminate H. }
      rewrite verify_with_eq in H by assumption. cbn [snd] in H. injection H as H.
      exists (firstn (length p - 64) p), (skipn (length p - 64) p).
      rewrite firstn_skipn, skipn_length. repeat split; [lia|assumption].
    + intros (msg & sig & -> & L & V).
      rewrite verify_with_eq by (rewrite app_length; lia).
      rewrite app_length, L. replace (length msg + 64 - 64) with (length msg) by lia.
      rewrite firstn_app_exact, skipn_app_exact by reflexivity. cbn [snd]. now rewrite V.
  - intros L. rewrite verify_with_eq by assumption. cbn [snd].
    destruct (ring_verify _ _ _ _); auto.
Qed.
(** C30. Accepting a packet that none of the honestly signed ones is exhibits an Ed25519 forgery: a
    message and a valid signature of it that the signer did not make. *)
Lemma p_C30_forgery_reduction :
  forall (C : ed25519), ed25519_laws C ->
  forall (k : keypair C) (pk : list byte) (signed : list packet) (q : packet) (i : nat),
    public_key k = Ok pk ->
    (forall p, In p signed -> packet_sign p k <> Ok q) ->
    snd (verify_with C pk {| pntr := q; index := i |}) = Ok true ->
    exists msg sig,
      packet_raw q = msg ++ sig /\
      ring_verify C (ring_public_key C k) msg sig = true /\
      forall p, In p signed -> (msg, sig) <> (packet_raw p, ring_sign C k (packet_raw p)).
Proof.
  intros C L k pk signed [q] i Hk Hs H. rewrite (public_key_ok C L) in Hk. injection Hk as <-.
  apply p_C30_accepts_iff in H as (msg & sig & E & _ & V).
  exists msg, sig. split; [exact E|]. split; [exact V|].
  intros p Hp Heq. apply (Hs p Hp). rewrite (sign_ok C L). injection Heq as -> ->. now rewrite E.
Qed.
(** ** verify: the key comes from the packet *)

Lemma verify_embedded_auth C p i v :
  i <= length p ->
  next_payload TBinMember {| pntr := Packet p; index := i |} = ({| pntr := Packet p; index := i + 76 |}, Ok v) ->
  76 <= length p - i /\
  verify_embedded C {| pntr := Packet p; index := i |} =
    ({| pntr := Packet (firstn (length p - 64) p); index := i + 76 |},
     Ok (ring_verify C (bm_public_key_bin v) (firstn (length p - 64) p) (skipn (length p - 64) p))).
Proof.
  intros Hi H. destruct (p_C25_auth_cursor p i (i + 76) v Hi H) as (_ & Hj & _).
  split; [lia|]. unfold verify_embedded. rewrite H. now rewrite verify_with_eq by lia.
Qed.

(** C31. End to end. A packet with a header, an authentication payload carrying the signer's key, and any
    payloads is signed. The receiver pops the header, verifies (true) and reads back all payloads in
    order; the cursor ends at the end of the unsigned packet. *)
Lemma p_C31_signed_message_end_to_end :
  forall (C : ed25519), ed25519_laws C ->
  forall (k : keypair C) (pk ekey mid : list byte) (mt : byte) (l : list payload) (p0 unsigned signed : packet),
    public_key k = Ok pk -> length ekey = 32 -> length mid = 20 ->
    Forall (fun x => in_range (projT1 x) (projT2 x)) l ->
    readable_sequence self_delimiting raw_at_end_only (map ptype l) = true ->
    packet_new (py_ipv8_header mid mt) = Ok p0 ->
    add_all p0 (existT tval TBinMember (BinMember pk ekey) :: l) = Ok unsigned ->
    packet_sign unsigned k = Ok signed ->
    exists d1 d2 d3,
      pop_header (start_deserialize signed) = (d1, Ok (spec_header mid mt)) /\
      verify_embedded C d1 = (d2, Ok true) /\
      read_all d2 (map ptype l) = (d3, Ok (map transmitted_payload l)) /\
      pntr d2 = unsigned /\ d3 = {| pntr := unsigned; index := length (packet_raw unsigned) |}.
Proof.
  intros C L k pk ekey mid mt l p0 unsigned signed Hk He Hm Hr S Hp Ha Hs.
  assert (Lk : length pk = 32).
  { rewrite (public_key_ok C L) in Hk. injection Hk as <-. apply (ring_public_key_length C L). }
  set (auth := existT tval TBinMember (BinMember pk ekey)) in *.
  assert (Hok : Forall payload_ok (auth :: l)).
  { assert (Hr' : Forall (fun x => in_range (projT1 x) (projT2 x)) (auth :: l)).
    { constructor; [|assumption]. cbn. auto. }
    clear -Hr' Ha. revert p0 Ha. induction (auth :: l) as [|[t v] l' IH]; intros p0 Ha; [constructor|].
    inversion Hr' as [|? ? Hv Hr'']; subst. cbn [projT1 projT2] in Hv. cbn [add_all] in Ha.
    destruct (encodable_dec t v Hv) as [E|E].
    - rewrite packet_add_ok in Ha by assumption. constructor; [now split|]. eapply IH; eassumption.
    - destruct (packet_add_err t p0 v Hv E) as [m F]. rewrite F in Ha. discriminate. }
  unfold py_ipv8_header in Hp. rewrite packet_new_complete, byte_of_N_of_byte in Hp.
  assert (Hp0 : p0 = Packet (header_layout mid mt)) by congruence. subst p0.
  rewrite add_all_ok in Ha by assumption. cbn [packet_bytes] in Ha.
  assert (Hu : unsigned = Packet (header_layout mid mt ++ flat_map payload_layout (auth :: l))) by congruence.
  subst unsigned.
  rewrite (sign_ok C L) in Hs. cbn [packet_bytes] in Hs.
  match type of Hs with Ok ?x = Ok signed => assert (Hsg : signed = x) by congruence end. subst signed.
  inversion Hok as [|? ? [Ra Ea] Hok']; subst. cbn [projT1 projT2 auth] in Ra, Ea.
  cbn [flat_map]. change (payload_layout auth) with (layout TBinMember (BinMember pk ekey)).
  set (body := flat_map payload_layout l).
  set (al := layout TBinMember (BinMember pk ekey)).
  assert (Lh : length (header_layout mid mt) = 23).
  { unfold header_layout. rewrite !app_length, Hm. reflexivity. }
  assert (La : length al = 76) by (apply auth_layout_length; exact Ra).
  set (hl := header_layout mid mt) in *.
  set (sig := ring_sign C k (hl ++ al ++ body)).
  assert (Lsig : length sig = 64) by apply (ring_sign_length C L).
  exists (Deserializer (Packet ((hl ++ al ++ body) ++ sig)) 23).
  exists (Deserializer (Packet (hl ++ al ++ body)) 99).
  eexists. split; [|split; [|split; [|split; [reflexivity|reflexivity]]]].
  - unfold start_deserialize, pop_header.
    assert (E : peek_header (Deserializer (Packet ((hl ++ al ++ body) ++ sig)) 0) = Ok (spec_header mid mt)).
    { rewrite <- app_assoc. rewrite peek_header_ok.
      - cbn [Nat.add]. unfold hl, header_layout.
        assert (F : firstn 20 (skipn 2 (([x00; x02] ++ mid ++ [mt]) ++ (al ++ body) ++ sig)) = mid /\
                    byte_at (([x00; x02] ++ mid ++ [mt]) ++ (al ++ body) ++ sig) 22 = mt).
        { cbn [app skipn]. rewrite <- app_assoc, firstn_app_exact by assumption. split; [reflexivity|].
          change (byte_at (mid ++ [mt] ++ (al ++ body) ++ sig) (20 + 0) = mt).
          rewrite <- byte_at_skipn, skipn_app_exact by assumption. reflexivity. }
        destruct F as [-> ->]. reflexivity.
      - lia.
      - apply header_prefix_ok_iff. rewrite app_length, Lh. unfold hl, header_layout. cbn. repeat split; lia. }
    rewrite E. reflexivity.
  - assert (E : next_payload TBinMember {| pntr := Packet ((hl ++ al ++ body) ++ sig); index := 23 |}
                = ({| pntr := Packet ((hl ++ al ++ body) ++ sig); index := 23 + 76 |}, Ok (BinMember pk ekey))).
    { rewrite <- !app_assoc.
      pose proof (next_payload_round TBinMember hl (BinMember pk ekey) (body ++ sig) Ra Ea eq_refl) as P.
      fold al in P. rewrite Lh in P. rewrite La in P. exact P. }
    assert (H23 : 23 <= length ((hl ++ al ++ body) ++ sig)) by (rewrite !app_length; lia).
    destruct (verify_embedded_auth C ((hl ++ al ++ body) ++ sig) 23 (BinMember pk ekey) H23 E) as [_ V].
    rewrite V. clear V E H23.
    rewrite (app_length _ sig), Lsig.
    replace (length (hl ++ al ++ body) + 64 - 64) with (length (hl ++ al ++ body)) by lia.
    rewrite firstn_app_exact, skipn_app_exact by reflexivity. cbn [bm_public_key_bin].
    rewrite (public_key_ok C L) in Hk. injection Hk as <-. unfold sig. rewrite (ring_verify_sign C L). reflexivity.
  - unfold packet_raw. cbn [packet_bytes]. rewrite app_assoc.
    replace 99 with (length (hl ++ al)) by (rewrite app_length; lia).
    now apply read_all_ok.
Qed.
Example ex_C31_hypotheses :
  exists p0 unsigned signed,
    packet_new (py_ipv8_header (repeat x2a 20) x01) = Ok p0 /\
    add_all p0 (existT tval TBinMember (BinMember (repeat x05 32) (repeat x06 32)) :: example_payloads) = Ok unsigned /\
    packet_sign (C := toy) unsigned (repeat x05 32) = Ok signed /\ public_key (C := toy) (repeat x05 32) = Ok (repeat x05 32) /\
    length (packet_raw signed) = 195.
Proof. do 3 eexists. repeat (split; [vm_compute; reflexivity|]). vm_compute. reflexivity. Qed.

(** C32. With a well-formed authentication payload at the cursor, [verify] uses the 32 bytes at offset 44
    of it, checks the last 64 bytes of the packet against everything before them, removes those 64 bytes
    and moves the cursor by 76. *)
Lemma p_C32_verify_uses_embedded_key :
  forall (C : ed25519) (p : list byte) (i : nat),
    let n := N.to_nat (u16_at p i) in
    i + 2 + n <= length p -> 74 <= n ->
    firstn 10 (skipn (i + 2) p) = ascii "LibNaCLPK:" ->
    verify_embedded C {| pntr := Packet p; index := i |} =
      ({| pntr := Packet (firstn (length p - 64) p); index := i + 76 |},
       Ok (ring_verify C (firstn 32 (skipn (i + 44) p)) (firstn (length p - 64) p) (skipn (length p - 64) p))).
Proof.
  intros C p i n Hn Hn2 Hpre. assert (Hi : i <= length p) by lia.
  destruct (p_C23_auth_exact p i Hi) as [_ E]. fold n in E. destruct E as (_ & _ & _ & E); [lia|].
  specialize (E Hn2 Hpre). destruct (verify_embedded_auth C p i _ Hi E) as [_ ->]. reflexivity.
Qed.
Example ex_C32_input :
  let p := [xaa] ++ u16_bytes 74 ++ ascii "LibNaCLPK:" ++ repeat x07 64 ++ repeat x01 64 in
  N.to_nat (u16_at p 1) = 74 /\ 1 + 2 + 74 <= length p /\ firstn 10 (skipn (1 + 2) p) = ascii "LibNaCLPK:".
Proof. repeat split; try (vm_compute; reflexivity). now apply Nat.leb_le. Qed.

(** C33. What a false verdict leaves behind: nothing changed exactly when no authentication payload could
    be read; otherwise 64 bytes are gone and the cursor has moved by 76. *)
Lemma p_C33_failed_verification :
  forall (C : ed25519) (p : list byte) (i : nat) (d : deserializer),
    i <= length p ->
    verify_embedded C {| pntr := Packet p; index := i |} = (d, Ok false) ->
    (d = {| pntr := Packet p; index := i |} /\
     exists e, next_payload TBinMember {| pntr := Packet p; index := i |} = (d, Err e)) \/
    (d = {| pntr := Packet (firstn (length p - 64) p); index := i + 76 |} /\ 76 <= length p - i /\
     exists v, snd (next_payload TBinMember {| pntr := Packet p; index := i |}) = Ok v /\
               ring_verify C (bm_public_key_bin v) (firstn (length p - 64) p) (skipn (length p - 64) p) = false).
Proof.
  intros C p i d Hi H.
  destruct (auth_cases p i Hi) as [[_ E]|(_ & _ & E)].
  - left. unfold verify_embedded in H. rewrite E in *. injection H as <-. eauto.
  - destruct (auth_of_contents _) as [v|e|q] eqn:A.
    + right. destruct (verify_embedded_auth C p i v Hi E) as [L F]. rewrite F in H. injection H as <- V.
      rewrite E. cbn [snd]. eauto.
    + left. unfold verify_embedded in H. rewrite E in *. injection H as <-. eauto.
    + unfold verify_embedded in H. rewrite E in H. discriminate H.
Qed.
(** C33. And the verdict is false, not true and not a panic, whenever no authentication payload can be read, or one can but
    the signature is wrong. *)
Lemma p_C33_when_false :
  forall (C : ed25519) (p : list byte) (i : nat),
    i <= length p ->
    let d := {| pntr := Packet p; index := i |} in
    (forall e, snd (next_payload TBinMember d) = Err e -> verify_embedded C d = (d, Ok false)) /\
    (forall v, snd (next_payload TBinMember d) = Ok v ->
       ring_verify C (bm_public_key_bin v) (firstn (length p - 64) p) (skipn (length p - 64) p) = false ->
       snd (verify_embedded C d) = Ok false).
Proof.
  intros C p i Hi d. unfold d.
  destruct (auth_cases p i Hi) as [[_ E]|(_ & _ & E)].
  - unfold verify_embedded. rewrite E. split; [reflexivity|discriminate].
  - destruct (auth_of_contents _) as [v|e|q] eqn:A.
    + destruct (verify_embedded_auth C p i v Hi E) as [L F]. rewrite F, E. cbn [snd].
      split; [discriminate|]. intros v' [= <-] ->. reflexivity.
    + unfold verify_embedded. rewrite E. split; [reflexivity|discriminate].
    + rewrite E. split; discriminate.
Qed.
Example ex_C33_both :
  let p := u16_bytes 74 ++ ascii "LibNaCLPK:" ++ repeat x07 64 ++ repeat x01 64 in
  snd (verify_embedded toy (start_deserialize (Packet p))) = Ok false /\
  snd (verify_embedded toy (start_deserialize (Packet [x01; x02]))) = Ok false.
Proof. now vm_compute. Qed.

(** C34. [verify_with] panics exactly on packets of fewer than 64 bytes. *)
Lemma p_C34_verify_with_panics_iff :
  forall (C : ed25519) (pk p : list byte) (i : nat),
    (exists x, snd (verify_with C pk {| pntr := Packet p; index := i |}) = Panic x) <-> length p < 64.
Proof.
  intros C pk p i. destruct (Nat.lt_ge_cases (length p) 64) as [L|L].
  - rewrite verify_with_short by assumption. cbn. split; [auto|eauto].
  - rewrite verify_with_eq by assumption. cbn. split; [intros [x H]; discriminate|lia].
Qed.
(** C34. [verify] never reaches that case: it panics exactly when reading the authentication payload does,
    and it never returns an error. *)
Lemma p_C34_verify_panics_iff :
  forall (C : ed25519) (p : list byte) (i : nat),
    i <= length p ->
    ((exists x, snd (verify_embedded C {| pntr := Packet p; index := i |}) = Panic x) <->
     let n := N.to_nat (u16_at p i) in
     (i + 2 <= length p /\ i + 2 + n <= length p) /\
     (n < 10 \/ n < 74 /\ firstn 10 (skipn (i + 2) p) = ascii "LibNaCLPK:")) /\
    (forall e, snd (verify_embedded C {| pntr := Packet p; index := i |}) <> Err e).
Proof.
  intros C p i Hi. cbv zeta. set (n := N.to_nat (u16_at p i)).
  destruct (p_C23_auth_exact p i Hi) as [E1 E2]. cbv zeta in E1, E2. fold n in E1, E2.
  assert (D : (i + 2 <= length p /\ i + 2 + n <= length p) \/ ~ (i + 2 <= length p /\ i + 2 + n <= length p)) by lia.
  destruct D as [D|D].
  - destruct (E2 D) as (A1 & A2 & A3 & A4).
    destruct (Nat.lt_ge_cases n 10) as [N1|N1].
    { unfold verify_embedded. rewrite (A1 N1). cbn. split; [split; eauto|discriminate]. }
    destruct (list_eq_dec byte_eq_dec (firstn 10 (skipn (i + 2) p)) (ascii "LibNaCLPK:")) as [Q|Q].
    + destruct (Nat.lt_ge_cases n 74) as [N2|N2].
      * unfold verify_embedded. rewrite (A3 (conj N1 N2) Q). cbn. split; [split; eauto|discriminate].
      * destruct (verify_embedded_auth C p i _ Hi (A4 N2 Q)) as [_ ->]. cbn.
        split; [split; [intros [x H]; discriminate|lia]|discriminate].
    + destruct (A2 N1 Q) as [m F]. unfold verify_embedded. rewrite F. cbn.
      split; [split; [intros [x H]; discriminate|intros [_ [H|[_ H]]]; [lia|contradiction]]|discriminate].
  - unfold verify_embedded. rewrite (E1 D). cbn.
    split; [split; [intros [x H]; discriminate|tauto]|discriminate].
Qed.
(** C34. Refuted: an empty packet makes [verify_with] panic instead of returning false. *)
Lemma p_C34_short_packet_refuted :
  forall (C : ed25519) (pk : list byte),
    snd (verify_with C pk (start_deserialize (Packet []))) = Panic PSubOverflow.
Proof. reflexivity. Qed.

(** C35. After [verify] has read an authentication payload, every later read panics exactly when fewer than
    64 bytes follow the authentication payload (the signature overlaps it); otherwise the cursor is inside
    the packet and C22-C27 apply. *)
Lemma p_C35_reading_after_verify :
  forall (C : ed25519) (p : list byte) (i : nat) (d : deserializer) (verdict : bool) (t : ty),
    i <= length p ->
    verify_embedded C {| pntr := Packet p; index := i |} = (d, Ok verdict) ->
    d <> {| pntr := Packet p; index := i |} ->
    (length p < i + 76 + 64 -> snd (next_payload t d) = Panic PSliceIndex /\ peek_header d = Panic PSliceIndex) /\
    (i + 76 + 64 <= length p -> index d <= length (packet_raw (pntr d)) /\
       (has_auth t = false -> forall x, snd (next_payload t d) <> Panic x)).
Proof.
  intros C p i d b t Hi H Hd.
  assert (E : d = {| pntr := Packet (firstn (length p - 64) p); index := i + 76 |} /\ 76 <= length p - i).
  { destruct (auth_cases p i Hi) as [[_ E]|(_ & _ & E)].
    - exfalso. apply Hd. unfold verify_embedded in H. rewrite E in H. now injection H as <- _.
    - destruct (auth_of_contents _) as [v|e|q] eqn:A.
      + destruct (verify_embedded_auth C p i v Hi E) as [L F]. rewrite F in H. now injection H as <- _.
      + exfalso. apply Hd. unfold verify_embedded in H. rewrite E in H. now injection H as <- _.
      + unfold verify_embedded in H. rewrite E in H. discriminate H. }
  destruct E as [-> L]. split.
  - intros S. apply p_C22_cursor_beyond_end_panics. rewrite firstn_length. lia.
  - intros S. unfold packet_raw. cbn [index pntr packet_bytes].
    assert (Hi2 : i + 76 <= length (firstn (length p - 64) p)) by (rewrite firstn_length; lia).
    split; [exact Hi2|]. intros Ha x Hx.
    destruct (p_C22_no_panic t _ _ Ha Hi2) as [(j & v & F)|(e & F)]; rewrite F in Hx; discriminate Hx.
Qed.
(** C35. Refuted: a packet on which [verify] returns normally and the next read panics. *)
Lemma p_C35_read_after_verify_refuted :
  exists (p : list byte) (d : deserializer),
    verify_embedded toy (start_deserialize (Packet p)) = (d, Ok false) /\
    forall t, snd (next_payload t d) = Panic PSliceIndex.
Proof.
  exists (u16_bytes 74 ++ ascii "LibNaCLPK:" ++ repeat x07 64 ++ repeat x01 63).
  eexists. split; [vm_compute; reflexivity|]. intros t.
  match goal with |- snd (next_payload t {| pntr := Packet ?p; index := ?i |}) = _ =>
    apply (p_C22_cursor_beyond_end_panics t p i) end.
  apply Nat.ltb_lt. vm_compute. reflexivity.
Qed.

(** ** Histories with verifications *)

Definition truncated_by (k : nat) (p : list byte) : list byte := firstn (length p - 64 * k) p.

Lemma truncated_0 p : truncated_by 0 p = p.
Proof. unfold truncated_by. rewrite Nat.mul_0_r, Nat.sub_0_r. apply firstn_all. Qed.
Lemma truncated_plus a b p :
  64 * a <= length p -> 64 * b <= length (truncated_by a p) ->
  truncated_by b (truncated_by a p) = truncated_by (a + b) p /\ 64 * (a + b) <= length p.
Proof.
  unfold truncated_by. rewrite !firstn_length. intros Ha Hb.
  rewrite firstn_firstn. split; [f_equal|]; lia.
Qed.

Lemma read_op_keeps C d o :
  is_read o = true -> pntr (fst (do_op C d o)) = pntr d /\ index d <= index (fst (do_op C d o)).
Proof.
  destruct o as [| |t| |]; try discriminate; intros _; cbn [do_op].
  - auto.
  - unfold pop_header. destruct (peek_header d); cbn; auto with arith.
  - unfold next_payload.
    match goal with |- context [match ?x with Ok _ => _ | Err _ => _ | Panic _ => _ end] =>
      destruct x as [[v n]|e|q] end; cbn; auto with arith.
Qed.
Lemma verify_with_op C key p i :
  (exists q, do_op C {| pntr := Packet p; index := i |} (OVerifyWith key) = ({| pntr := Packet p; index := i |}, Panic q)) \/
  (64 <= length p /\
   do_op C {| pntr := Packet p; index := i |} (OVerifyWith key) = ({| pntr := Packet (truncated_by 1 p); index := i |}, Ok tt)).
Proof.
  cbn [do_op]. destruct (Nat.lt_ge_cases (length p) 64) as [L|L].
  - left. rewrite verify_with_short by assumption. exists PSubOverflow. reflexivity.
  - right. rewrite verify_with_eq by assumption. split; [assumption|reflexivity].
Qed.
Lemma verify_op C p i :
  (exists r, do_op C {| pntr := Packet p; index := i |} OVerify = ({| pntr := Packet p; index := i |}, r)) \/
  (64 <= length p /\ exists j, i <= j /\
   do_op C {| pntr := Packet p; index := i |} OVerify = ({| pntr := Packet (truncated_by 1 p); index := j |}, Ok tt)).
Proof.
  cbn [do_op]. destruct (Nat.lt_ge_cases (length p) i) as [L|L].
  { left. unfold verify_embedded. rewrite next_payload_panic by assumption. eexists. reflexivity. }
  destruct (auth_cases p i L) as [[_ E]|(_ & _ & E)].
  - left. unfold verify_embedded. rewrite E. eexists. reflexivity.
  - destruct (auth_of_contents _) as [v|e|q] eqn:A.
    + right. destruct (verify_embedded_auth C p i v L E) as [H ->]. split; [lia|].
      exists (i + 76). split; [lia|reflexivity].
    + left. unfold verify_embedded. rewrite E. eexists. reflexivity.
    + left. unfold verify_embedded. rewrite E. eexists. reflexivity.
Qed.

Ltac keeps :=
  match goal with E1 : do_op ?C ?d ?o = _ |- _ =>
    let R := fresh "R" in let R' := fresh "R'" in
    destruct (read_op_keeps C d o eq_refl) as [R R']; rewrite E1 in R, R' end.

(** C36. Over any history of reads and verifications, with any results, what is left of the packet is the
    original without its last 64 k bytes, k being the number of verifications that got as far as the
    signature: all returning [verify_with] calls, and at most the returning [verify] calls. The cursor
    never goes back. *)
Lemma p_C36_histories :
  forall (C : ed25519) (l : list op) (p : list byte) (i : nat) (d : deserializer) (rs : list (outcome unit)),
    do_ops C {| pntr := Packet p; index := i |} l = (d, rs) ->
    exists k,
      packet_raw (pntr d) = firstn (length p - 64 * k) p /\ 64 * k <= length p /\
      verify_with_returned l rs <= k <= verify_with_returned l rs + verify_returned l rs /\
      i <= index d.
Proof.
  intros C l. induction l as [|o l IH]; intros p i d rs H.
  - cbn in H. injection H as <- <-. exists 0. cbn. rewrite Nat.sub_0_r, firstn_all. repeat split; lia.
  - cbn [do_ops] in H.
    destruct (do_op C {| pntr := Packet p; index := i |} o) as [[[p1] i1] x] eqn:E1.
    destruct (do_ops C _ l) as [d2 xs] eqn:E2. injection H as <- <-.
    destruct (IH p1 i1 d2 xs E2) as (k & K1 & K2 & K3 & K4). clear IH E2.
    assert (T : p1 = p \/ (64 <= length p /\ p1 = truncated_by 1 p)).
    { destruct o as [| |t|key|].
      1-3: left; keeps; now injection R.
      - destruct (verify_with_op C key p i) as [[q E]|[G E]]; rewrite E in E1; injection E1 as <- _ _; auto.
      - destruct (verify_op C p i) as [[r E]|(G & j & _ & E)]; rewrite E in E1; injection E1 as <- _ _; auto. }
    assert (I1 : i <= i1).
    { destruct o as [| |t|key|].
      1-3: keeps; exact R'.
      - destruct (verify_with_op C key p i) as [[q E]|[G E]]; rewrite E in E1; injection E1; intros; lia.
      - destruct (verify_op C p i) as [[r E]|(G & j & J & E)]; rewrite E in E1; injection E1; intros; lia. }
    assert (Tr : forall w v,
      (p1 = p /\ w = 0 \/ 64 <= length p /\ p1 = truncated_by 1 p /\ w + v = 1) ->
      exists k', packet_raw (pntr d2) = firstn (length p - 64 * k') p /\ 64 * k' <= length p /\
        w + verify_with_returned l xs <= k' <= (w + verify_with_returned l xs) + (v + verify_returned l xs) /\
        i <= index d2).
    { intros w v [[-> ->]|(G & -> & W)].
      - exists k. repeat split; try lia. exact K1.
      - exists (1 + k). destruct (truncated_plus 1 k p ltac:(lia) K2) as [T1 T2].
        repeat split; try lia. change (packet_raw (pntr d2) = truncated_by (1 + k) p). rewrite <- T1. exact K1. }
    destruct o as [| |t|key|]; cbn [verify_with_returned verify_returned].
    1-3: assert (Hp1 : p1 = p) by
           (keeps; now injection R);
         apply (Tr 0 0); auto.
    + apply (Tr (if is_ok x then 1 else 0) 0).
      destruct (verify_with_op C key p i) as [[q E]|[G E]]; rewrite E in E1; injection E1 as <- _ <-; auto.
    + apply (Tr 0 (if is_ok x then 1 else 0)).
      destruct (verify_op C p i) as [[r E]|(G & j & _ & E)]; rewrite E in E1; injection E1 as <- _ <-; auto.
Qed.
Example ex_C36_two_verifications :
  do_ops toy (start_deserialize (Packet (repeat x00 130))) [OVerifyWith []; OPeek; OVerifyWith []; OVerifyWith []]
   = (start_deserialize (Packet [x00; x00]),
      [Ok tt; Err (ECustom "No valid header type could be determined"); Ok tt; Panic PSubOverflow]).
Proof. vm_compute. reflexivity. Qed.

(** ** Keys *)

(** C37. [from_seed_checked] succeeds iff the given public key is the one of the seed. *)
Lemma p_C37_from_seed_checked :
  forall (C : ed25519), ed25519_laws C ->
  forall (seed pk : list byte) (k : keypair C),
    keypair_from_seed_checked C seed pk = Ok k <->
    keypair_from_seed_unchecked C seed = Ok k /\ public_key k = Ok pk.
Proof.
  intros C L seed pk k. unfold keypair_from_seed_checked, keypair_from_seed_unchecked.
  rewrite (ring_seed_checked C L), (public_key_ok C L).
  destruct (ring_from_seed_unchecked C seed) as [k'|]; [|cbn; split; [discriminate|intros [H _]; discriminate]].
  destruct (bytes_eqb pk (ring_public_key C k')) eqn:E; cbn [ok_or].
  - apply bytes_eqb_eq in E as ->. split; [intros [= <-]; auto|intros [H _]; exact H].
  - split; [discriminate|]. intros [[= <-] [= <-]].
    exfalso. apply not_true_iff_false in E. apply E. now apply bytes_eqb_eq.
Qed.
(** C37. A 32-byte seed always gives a key pair; its failure mode is a rejection, never a panic. *)
Lemma p_C37_seed_total :
  forall (C : ed25519), ed25519_laws C ->
  forall (seed : list byte), length seed = 32 ->
  exists k pk, keypair_from_seed_unchecked C seed = Ok k /\ public_key k = Ok pk /\ length pk = 32 /\
               keypair_from_seed_checked C seed pk = Ok k /\
               forall pk', pk' <> pk -> keypair_from_seed_checked C seed pk' = Err EKeyRejectedError.
Proof.
  intros C L seed Hs. destruct (ring_seed_total C L seed Hs) as [k Hk].
  exists k, (ring_public_key C k). unfold keypair_from_seed_unchecked, keypair_from_seed_checked.
  rewrite (ring_seed_checked C L), Hk. split; [reflexivity|]. split; [now apply public_key_ok|].
  split; [apply (ring_public_key_length C L)|]. split.
  - destruct (bytes_eqb _ _) eqn:E; [reflexivity|]. exfalso. apply not_true_iff_false in E. apply E.
    now apply bytes_eqb_eq.
  - intros pk' Hne. rewrite (ring_seed_checked C L), Hk.
    destruct (bytes_eqb pk' _) eqn:E; [apply bytes_eqb_eq in E; contradiction|reflexivity].
Qed.
(** C37. Detached signatures: what [sign] makes, all three verification functions accept under the
    signer's key, and they agree on everything. *)
Lemma p_C37_detached_signatures :
  forall (C : ed25519), ed25519_laws C ->
  forall (k : keypair C) (pk : list byte) (msg : packet),
    public_key k = Ok pk ->
    exists s, sign k (packet_raw msg) = Ok s /\ sign_packet k msg = Ok s /\ length (sig_bytes s) = 64 /\
      verify C pk (packet_raw msg) (sig_bytes s) = true /\
      forall pk' s', verify_packet C pk' msg s' = verify C pk' (packet_raw msg) (sig_bytes s') /\
                     verify_raw C pk' (packet_raw msg) (sig_bytes s') = verify C pk' (packet_raw msg) (sig_bytes s').
Proof.
  intros C L k pk msg Hk. rewrite (public_key_ok C L) in Hk. injection Hk as <-.
  exists (Signature (ring_sign C k (packet_raw msg))).
  assert (E : sign k (packet_raw msg) = Ok (Signature (ring_sign C k (packet_raw msg)))).
  { unfold sign. now rewrite layout_verified_ok by apply (ring_sign_length C L). }
  split; [exact E|]. split; [exact E|]. split; [apply (ring_sign_length C L)|].
  split; [apply (ring_verify_sign C L)|]. auto.
Qed.
Example ex_C37_toy : exists k, keypair_from_seed_checked toy (repeat x05 32) (repeat x05 32) = Ok k.
Proof. eexists. vm_compute. reflexivity. Qed.

(** C38. [as_fixed_size] succeeds iff the slice has exactly the size of the array. *)
Lemma p_C38_as_fixed_size :
  forall (n : nat) (data : list byte),
    (length data = n -> as_fixed_size n data = Ok data) /\
    (length data <> n -> as_fixed_size n data = Err EConversionError).
Proof.
  intros n data. unfold as_fixed_size, layout_verified.
  destruct (Nat.eqb_spec (length data) n) as [E|E]; split; intros H; try contradiction; reflexivity.
Qed.

(** ** Stacks of signatures *)
Lemma do_ops_app C l1 : forall l2 d,
  do_ops C d (l1 ++ l2) =
    let '(d1, r1) := do_ops C d l1 in let '(d2, r2) := do_ops C d1 l2 in (d2, r1 ++ r2).
Proof.
  induction l1 as [|o l1 IH]; intros l2 d; cbn [app do_ops].
  - now destruct (do_ops C d l2).
  - destruct (do_op C d o) as [d' x]. rewrite IH.
    destruct (do_ops C d' l1) as [d1 r1]. destruct (do_ops C d1 l2). reflexivity.
Qed.
Lemma verify_all_app C l1 : forall l2 d d1 b1,
  verify_all C l1 d = (d1, Ok b1) ->
  verify_all C (l1 ++ l2) d = let '(d2, o) := verify_all C l2 d1 in (d2, let* bs := o in Ok (b1 ++ bs)).
Proof.
  induction l1 as [|k l1 IH]; intros l2 d d1 b1 H; cbn [app verify_all] in *.
  - injection H as <- <-. destruct (verify_all C l2 d) as [d2 [b|e|q]]; reflexivity.
  - destruct (verify_with C k d) as [d' [b|e|q]]; try discriminate.
    destruct (verify_all C l1 d') as [d'' [bs'|e|q]] eqn:E; cbn [bind] in H; try discriminate.
    injection H as <- <-. rewrite (IH l2 d' d'' bs' E).
    destruct (verify_all C l2 d'') as [d2 [b2|e|q]]; reflexivity.
Qed.

(** C58. Signatures stack: a packet signed by any sequence of keys is peeled in the opposite order, every
    verification succeeding, and the original packet and cursor come back. *)
Lemma p_C58_signature_stack :
  forall (C : ed25519), ed25519_laws C ->
  forall (ks : list (keypair C)) (p q : packet) (i : nat),
    sign_all ks p = Ok q ->
    verify_all C (rev (map (ring_public_key C) ks)) {| pntr := q; index := i |}
    = ({| pntr := p; index := i |}, Ok (map (fun _ => true) ks)) /\
    length (packet_raw q) = length (packet_raw p) + 64 * length ks.
Proof.
  intros C L ks. induction ks as [|k ks IH]; intros p q i H.
  - cbn in H. injection H as <-. cbn. split; [reflexivity|lia].
  - cbn [sign_all] in H. destruct (packet_sign p k) as [q1|e|e] eqn:E; try discriminate.
    destruct (IH q1 q i H) as [I1 I2]. cbn [map rev].
    rewrite (verify_all_app _ _ _ _ _ _ I1). cbn [verify_all].
    rewrite (p_C29_sign_then_verify C L k _ p q1 i (public_key_ok C L k) E).
    cbn [bind]. split.
    + do 2 f_equal. clear. induction ks as [|x ks IH]; [reflexivity|]. cbn. now rewrite IH.
    + rewrite I2. rewrite (sign_ok C L) in E. injection E as <-. unfold packet_raw. cbn [packet_bytes].
      rewrite app_length, (ring_sign_length C L). cbn [length]. lia.
Qed.
Example ex_C58_two : exists q, sign_all (C := toy) [repeat x01 32; repeat x02 32] (Packet [x09]) = Ok q.
Proof. eexists. vm_compute. reflexivity. Qed.
