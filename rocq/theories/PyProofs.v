(** * PyProofs: C39-C40 *)
From Coq Require Import Strings.String.
From Verif Require Import Base Serde Codec Universe Spec SerdeFacts CodecFacts UniverseFacts Packet Client PacketFacts CodecProofs CursorProofs CryptoProofs PyBinding.
Open Scope nat_scope.

(** [verify] returns a bool: the model's [verify_embedded] never yields [Err]. *)
Lemma verify_embedded_not_err C d e : snd (verify_embedded C d) <> Err e.
Proof.
  destruct d as [[p] i]. destruct (Nat.lt_ge_cases (length p) i) as [L|L].
  - unfold verify_embedded. rewrite next_payload_panic by assumption. discriminate.
  - apply (proj2 (p_C34_verify_panics_iff C p i L)).
Qed.

(** C39. [borrowed_create_signature]: the exact result for every input. *)
Lemma p_C39_create_signature :
  forall (C : ed25519), ed25519_laws C ->
  forall (seed key data : list byte),
    (length key <> 32 ->
       borrowed_create_signature C seed key data = PyKeyError "Key length was wrong") /\
    (length key = 32 -> length seed <> 32 ->
       borrowed_create_signature C seed key data = PyKeyError "Seed length was wrong") /\
    (length key = 32 -> length seed = 32 ->
       exists k, ring_from_seed_unchecked C seed = Some k /\
         (ring_public_key C k <> key ->
            borrowed_create_signature C seed key data = PyKeyError "Invalid key given") /\
         (ring_public_key C k = key ->
            borrowed_create_signature C seed key data = PyOk (data ++ ring_sign C k data) /\
            length (ring_sign C k data) = 64)).
Proof.
  intros C L seed key data. unfold borrowed_create_signature.
  destruct (p_C38_as_fixed_size 32 key) as [K1 K2]. destruct (p_C38_as_fixed_size 32 seed) as [S1 S2].
  split; [|split].
  - intros H. now rewrite (K2 H).
  - intros H1 H2. now rewrite (K1 H1), (S2 H2).
  - intros H1 H2. rewrite (K1 H1), (S1 H2). cbn [or_else].
    destruct (ring_seed_total C L seed H2) as [k Hk]. exists k. split; [exact Hk|].
    unfold keypair_from_seed_checked. rewrite (ring_seed_checked C L), Hk. split.
    + intros Hne. destruct (bytes_eqb key (ring_public_key C k)) eqn:E; [|reflexivity].
      apply bytes_eqb_eq in E. now contradiction Hne.
    + intros <-. destruct (bytes_eqb _ _) eqn:E.
      * cbn [ok_or or_else]. rewrite (sign_ok C L). cbn [or_else packet_bytes].
        split; [reflexivity|apply (ring_sign_length C L)].
      * exfalso. apply not_true_iff_false in E. apply E. now apply bytes_eqb_eq.
Qed.
Example ex_C39_toy :
  borrowed_create_signature toy (repeat x05 32) (repeat x05 32) [x01] =
    PyOk ([x01] ++ repeat x05 32 ++ [x01] ++ repeat x00 31) /\
  borrowed_create_signature toy (repeat x05 32) (repeat x06 32) [x01] = PyKeyError "Invalid key given" /\
  borrowed_create_signature toy (repeat x05 31) (repeat x06 31) [x01] = PyKeyError "Key length was wrong".
Proof. now vm_compute. Qed.

Lemma skip_header_ok p :
  header_prefix_ok p = true ->
  skip_header (start_deserialize (Packet p)) = Ok {| pntr := Packet p; index := 23 |}.
Proof.
  intros H. unfold skip_header, pop_header, start_deserialize.
  rewrite peek_header_ok by (lia || exact H). reflexivity.
Qed.

(** C40. [borrowed_verify_signature]: the exact result for every input. Without a header it raises
    ValueError. Otherwise, with n the announced length of the key blob behind the header, it returns
    false and everything behind the header when the blob is incomplete or has the wrong prefix; the
    verdict and the bytes between authentication payload and signature when the blob has at least 74 bytes
    and 64 more bytes follow the first 76; and it panics in all other cases. *)
Lemma p_C40_verify_signature :
  forall (C : ed25519) (auth data : list byte),
    let header_ok := 23 <= length data /\ byte_at data 0 = x00 /\ byte_at data 1 = x02 in
    let n := N.to_nat (u16_at data 23) in
    let blob_ok := 25 <= length data /\ 25 + n <= length data in
    let prefix_ok := firstn 10 (skipn 25 data) = ascii "LibNaCLPK:" in
    let signed := length data - 64 in
    (~ header_ok ->
       borrowed_verify_signature C auth data = PyValueError "Could not ignore the header") /\
    (header_ok -> ~ blob_ok ->
       borrowed_verify_signature C auth data = PyOk (false, skipn 23 data)) /\
    (header_ok -> blob_ok -> 10 <= n -> ~ prefix_ok ->
       borrowed_verify_signature C auth data = PyOk (false, skipn 23 data)) /\
    (header_ok -> blob_ok -> n < 10 \/ (n < 74 /\ prefix_ok) ->
       borrowed_verify_signature C auth data = PyPanic PSliceIndex) /\
    (header_ok -> blob_ok -> 74 <= n -> prefix_ok -> length data < 163 ->
       borrowed_verify_signature C auth data = PyPanic PSliceIndex) /\
    (header_ok -> blob_ok -> 74 <= n -> prefix_ok -> 163 <= length data ->
       borrowed_verify_signature C auth data =
         PyOk (ring_verify C (firstn 32 (skipn 67 data)) (firstn signed data) (skipn signed data),
               skipn 99 (firstn signed data))).
Proof.
  intros C auth data header_ok n blob_ok prefix_ok signed.
  assert (Hiff : header_prefix_ok data = true <-> header_ok).
  { change data with (skipn 0 data) at 1. rewrite header_prefix_ok_iff. reflexivity. }
  split.
  { intros H. unfold borrowed_verify_signature, skip_header, pop_header, start_deserialize.
    destruct (peek_header_err data 0) as [e ->]; [lia| |reflexivity].
    cbn [skipn]. apply not_true_iff_false. now rewrite Hiff. }
  assert (D : header_ok -> 23 <= length data) by (intros [H _]; exact H).
  assert (E : header_ok -> borrowed_verify_signature C auth data =
    match verify_embedded C {| pntr := Packet data; index := 23 |} with
       | (_, Panic q) => PyPanic q
       | (_, Err _) => PyPanic PSliceIndex
       | (de', Ok result) =>
           match slice_from (packet_bytes (pntr de')) (index de') with
           | None => PyPanic PSliceIndex
           | Some rest => PyOk (result, rest)
           end
       end).
  { intros H. unfold borrowed_verify_signature. rewrite skip_header_ok by now apply Hiff. reflexivity. }
  assert (A : header_ok -> _) by exact (fun H => p_C23_auth_exact data 23 (D H)).
  cbv zeta in A. cbn [Nat.add] in A. fold n in A.
  assert (F : header_ok -> (exists e, next_payload TBinMember (Deserializer (Packet data) 23) =
                              (Deserializer (Packet data) 23, Err e)) ->
              borrowed_verify_signature C auth data = PyOk (false, skipn 23 data)).
  { intros H [e G]. rewrite (E H). unfold verify_embedded. rewrite G. cbn [pntr index packet_bytes].
    now rewrite slice_from_ok by (apply D, H). }
  assert (P : header_ok -> next_payload TBinMember (Deserializer (Packet data) 23) =
                              (Deserializer (Packet data) 23, Panic PSliceIndex) ->
              borrowed_verify_signature C auth data = PyPanic PSliceIndex).
  { intros H G. rewrite (E H). unfold verify_embedded. now rewrite G. }
  split.
  { intros H NB. apply F; [exact H|]. eexists. apply (proj1 (A H)). exact NB. }
  split.
  { intros H B N1 NP. apply F; [exact H|]. destruct (A H) as [_ A2]. destruct (A2 B) as (_ & A3 & _).
    destruct (A3 N1 NP) as [m G]. eexists. exact G. }
  split.
  { intros H B [N1|[N1 Q]]; apply P; try exact H; destruct (A H) as [_ A2]; destruct (A2 B) as (A3 & _ & A4 & _).
    - now apply A3.
    - destruct (Nat.lt_ge_cases n 10) as [N2|N2]; [now apply A3|]. now apply A4. }
  assert (V : header_ok -> blob_ok -> 74 <= n -> prefix_ok ->
    verify_embedded C {| pntr := Packet data; index := 23 |} =
      ({| pntr := Packet (firstn signed data); index := 99 |},
       Ok (ring_verify C (firstn 32 (skipn 67 data)) (firstn signed data) (skipn signed data)))).
  { intros H B N1 Q. apply (p_C32_verify_uses_embedded_key C data 23); cbn [Nat.add]; try assumption.
    exact (proj2 B). }
  split; intros H B N1 Q Len; rewrite (E H), (V H B N1 Q); cbn [pntr index packet_bytes].
  - rewrite slice_from_none; [reflexivity|]. rewrite firstn_length. unfold signed. lia.
  - rewrite slice_from_ok; [reflexivity|]. rewrite firstn_length. unfold signed. lia.
Qed.
(** C40. Refuted: 25 bytes suffice to make it panic. *)
Lemma p_C40_no_crash_refuted :
  forall (C : ed25519) (auth : list byte),
  exists data, length data = 25 /\ borrowed_verify_signature C auth data = PyPanic PSliceIndex.
Proof. intros C auth. exists ([x00; x02] ++ repeat x00 23). split; vm_compute; reflexivity. Qed.
(** C40. What [borrowed_create_signature] makes of a header, an authentication payload with the key, and
    any further bytes, [borrowed_verify_signature] accepts and returns those bytes. *)
Lemma p_C40_create_then_verify :
  forall (C : ed25519), ed25519_laws C ->
  forall (seed key ekey mid : list byte) (mt : byte) (body auth signed : list byte),
    length mid = 20 -> length ekey = 32 ->
    borrowed_create_signature C seed key
      (header_layout mid mt ++ auth_layout (BinMember key ekey) ++ body) = PyOk signed ->
    borrowed_verify_signature C auth signed = PyOk (true, body).
Proof.
  intros C L seed key ekey mid mt body auth signed Hm He H.
  destruct (p_C39_create_signature C L seed key (header_layout mid mt ++ auth_layout (BinMember key ekey) ++ body))
    as (K1 & K2 & K3).
  destruct (Nat.eq_dec (length key) 32) as [Lk|Lk]; [|rewrite (K1 Lk) in H; discriminate].
  destruct (Nat.eq_dec (length seed) 32) as [Ls|Ls]; [|rewrite (K2 Lk Ls) in H; discriminate].
  destruct (K3 Lk Ls) as (k & _ & K4 & K5).
  destruct (list_eq_dec byte_eq_dec (ring_public_key C k) key) as [E|E]; [|rewrite (K4 E) in H; discriminate].
  destruct (K5 E) as [K6 K7]. rewrite K6 in H.
  set (hl := header_layout mid mt) in *. set (al := auth_layout (BinMember key ekey)) in *.
  assert (Hs : signed = (hl ++ al ++ body) ++ ring_sign C k (hl ++ al ++ body)) by congruence.
  subst signed. clear H K1 K2 K3 K4 K5 K6.
  set (sig := ring_sign C k (hl ++ al ++ body)) in *.
  assert (Ra : in_range TBinMember (BinMember key ekey)) by (cbn; auto).
  assert (Lh : length hl = 23) by (unfold hl, header_layout; rewrite !app_length, Hm; reflexivity).
  assert (La : length al = 76) by (apply auth_layout_length; exact Ra).
  unfold borrowed_verify_signature. rewrite skip_header_ok.
  2:{ change ((hl ++ al ++ body) ++ sig) with (skipn 0 ((hl ++ al ++ body) ++ sig)).
      apply header_prefix_ok_iff. rewrite !app_length, Lh. unfold hl, header_layout. cbn. repeat split; lia. }
  cbn [or_else].
  assert (E1 : next_payload TBinMember {| pntr := Packet ((hl ++ al ++ body) ++ sig); index := 23 |}
              = ({| pntr := Packet ((hl ++ al ++ body) ++ sig); index := 23 + 76 |}, Ok (BinMember key ekey))).
  { rewrite <- !app_assoc.
    pose proof (next_payload_round TBinMember hl (BinMember key ekey) (body ++ sig) Ra I eq_refl) as P.
    change (layout TBinMember (BinMember key ekey)) with al in P. rewrite Lh, La in P. exact P. }
  assert (H23 : 23 <= length ((hl ++ al ++ body) ++ sig)) by (rewrite !app_length; lia).
  destruct (verify_embedded_auth C _ 23 (BinMember key ekey) H23 E1) as [_ V].
  rewrite V. clear V. cbn [pntr index packet_bytes bm_public_key_bin].
  rewrite (app_length _ sig), K7.
  replace (length (hl ++ al ++ body) + 64 - 64) with (length (hl ++ al ++ body)) by lia.
  rewrite firstn_app_exact, skipn_app_exact by reflexivity.
  rewrite slice_from_ok by (rewrite !app_length; lia).
  replace (skipn (23 + 76) (hl ++ al ++ body)) with body.
  2:{ rewrite app_assoc. symmetry. apply skipn_app_exact. rewrite app_length. lia. }
  rewrite <- E. unfold sig. now rewrite (ring_verify_sign C L).
Qed.
Example ex_C40_round_trip :
  exists signed,
    borrowed_create_signature toy (repeat x05 32) (repeat x05 32)
      (header_layout (repeat x2a 20) x01 ++ auth_layout (BinMember (repeat x05 32) (repeat x06 32)) ++ [x09; x08]) = PyOk signed /\
    borrowed_verify_signature toy [] signed = PyOk (true, [x09; x08]).
Proof. eexists. split; vm_compute; reflexivity. Qed.
