(** * AppendedProofs: C135, adding payloads to a packet that is signed already

    The documentation of Packet::sign (serialization/mod.rs:144-147): "After this, new payloads must under no circumstances be added as
    this will break the verification process on the receiving end. There is no check for this". *)
From Coq Require Import Strings.String.
From Verif Require Import Base Serde Codec Universe Spec SerdeFacts CodecFacts UniverseFacts Packet Client PacketFacts CodecProofs CryptoProofs EdField EdCurve Ed25519 EdSpec Ed25519Proofs.
Open Scope nat_scope.

(** C135. Nothing stops the addition: to a signed packet every payload that has an encoding is added as to any other packet,
    and the content and the signature are still in front of it. *)
Lemma p_C135_there_is_no_check :
  forall (C : ed25519), ed25519_laws C ->
  forall (k : keypair C) (p q : packet) (t : ty) (v : tval t),
    packet_sign p k = Ok q -> in_range t v -> encodable t v ->
    exists sig, sign_packet k p = Ok (Signature sig) /\ length sig = 64 /\
      packet_add t q v = (Packet (packet_raw p ++ sig ++ layout t v), Ok tt).
Proof.
  intros C LW k p q t v S R E. destruct (p_C28_sign_appends C LW k p) as (q' & sig & S' & Q & L & _ & SP).
  assert (q' = q) as -> by congruence. exists sig. split; [exact SP|]. split; [exact L|].
  rewrite p_C05_wire_layout by assumption. now rewrite Q, <- app_assoc.
Qed.

(** C135. What the receiver has in its hands after [verify_with], whatever the verdict, if at most 64 bytes were added: the content
    that was signed, followed by as many bytes of the signature as were added. Of the added payload nothing is left. *)
Lemma p_C135_what_is_left_after_verification :
  forall (C : ed25519), ed25519_laws C ->
  forall (k : keypair C) (p q : packet) (sig added key : list byte) (i : nat),
    packet_sign p k = Ok q -> sign_packet k p = Ok (Signature sig) -> length added <= 64 ->
    fst (verify_with C key {| pntr := Packet (packet_raw q ++ added); index := i |})
    = {| pntr := Packet (packet_raw p ++ firstn (length added) sig); index := i |}.
Proof.
  intros C LW k p q sig added key i S SP L. destruct (p_C28_sign_appends C LW k p) as (q' & sig' & S' & Q & Ls & _ & SP').
  assert (q' = q) as -> by congruence. assert (sig' = sig) as -> by congruence.
  unfold verify_with, ED25519_SIGNATURE_BYTES. cbn [pntr packet_bytes index].
  rewrite Q, <- app_assoc, !app_length, Ls. destruct (Nat.ltb_spec (length (packet_raw p) + (64 + length added)) 64); [lia|].
  cbn [fst]. replace (length (packet_raw p) + (64 + length added) - 64) with (length (packet_raw p) + length added) by lia.
  rewrite firstn_app_2. f_equal. f_equal. f_equal. rewrite firstn_app, Ls. replace (length added - 64) with 0 by lia. now rewrite app_nil_r.
Qed.

(** C135. With the real signatures: of all byte strings of the same length that agree except for their last 32 bytes, at most one can
    be added to a packet (signed or not, of whatever key) such that [verify_with] still says true. *)
Lemma p_C135_at_most_one_continuation_verifies :
  forall (from_pkcs8 : list byte -> option (list byte)) (key body common tail1 tail2 : list byte) (i j : nat),
    64 <= length body ->
    length tail1 = length tail2 -> length tail1 <= 32 ->
    snd (verify_with (ring_ed25519 from_pkcs8) key {| pntr := Packet (body ++ common ++ tail1); index := i |}) = Ok true ->
    snd (verify_with (ring_ed25519 from_pkcs8) key {| pntr := Packet (body ++ common ++ tail2); index := j |}) = Ok true ->
    tail1 = tail2.
Proof.
  intros f key body common t1 t2 i j LB LE L V1 V2. rewrite !app_assoc in V1, V2. set (w := body ++ common) in *.
  assert (LW : 64 <= length w) by (unfold w; rewrite app_length; lia).
  set (n := length w + length t1 - 32).
  assert (LN : n <= length w) by (subst n; lia).
  rewrite <- (firstn_skipn n w), <- app_assoc in V1, V2.
  pose proof (p_C102_last_32_bytes_are_determined f key (firstn n w) (skipn n w ++ t1) (skipn n w ++ t2) i j) as H.
  assert (L1 : length (skipn n w ++ t1) = 32) by (clear - LE L LW; rewrite app_length, skipn_length; subst n; lia).
  assert (L2 : length (skipn n w ++ t2) = 32) by (clear - LE L LW; rewrite app_length, skipn_length; subst n; lia).
  specialize (H L1 L2 V1 V2). now apply app_inv_head in H.
Qed.

(** C135. So of all the values of a payload type of at most 32 bytes at most one can be added to a signed packet without breaking the
    verification. For a global time (8 bytes): of the 2^64 values at most one. *)
Lemma p_C135_at_most_one_value_verifies :
  forall (from_pkcs8 : list byte -> option (list byte)) (k : keypair (ring_ed25519 from_pkcs8)) (key : list byte)
         (p q q1 q2 : packet) (t : ty) (v1 v2 : tval t) (i j : nat),
    packet_sign p k = Ok q ->
    raw_at_end_only t = true -> has_introduction t = false -> in_range t v1 -> in_range t v2 ->
    packet_add t q v1 = (q1, Ok tt) -> packet_add t q v2 = (q2, Ok tt) ->
    length (packet_raw q1) = length (packet_raw q2) -> length (packet_raw q1) <= length (packet_raw q) + 32 ->
    snd (verify_with (ring_ed25519 from_pkcs8) key {| pntr := q1; index := i |}) = Ok true ->
    snd (verify_with (ring_ed25519 from_pkcs8) key {| pntr := q2; index := j |}) = Ok true ->
    v1 = v2.
Proof.
  intros f k key p q q1 q2 t v1 v2 i j S RT NI R1 R2 A1 A2 LE L V1 V2.
  apply (p_C11_injective_exact t q q2 v1 v2 RT NI R1 R2); [|exact A2]. rewrite A1. f_equal.
  apply packet_add_ok_inv in A1 as [_ ->]; [|exact R1]. apply packet_add_ok_inv in A2 as [_ ->]; [|exact R2].
  unfold packet_raw in *. cbn [packet_bytes] in *. rewrite !app_length in *. do 2 f_equal.
  destruct (p_C28_sign_appends _ (p_C100_ed25519_meets_the_laws f) k p) as (q' & sig & S' & Q & Ls & _). assert (q' = q) as -> by congruence.
  apply (p_C135_at_most_one_continuation_verifies f key (packet_bytes q) [] (layout t v1) (layout t v2) i j); [|lia|lia|exact V1|exact V2].
  unfold packet_raw in Q. rewrite Q, app_length. lia.
Qed.

Lemma p_C135_at_most_one_global_time_verifies :
  forall (from_pkcs8 : list byte -> option (list byte)) (k : keypair (ring_ed25519 from_pkcs8)) (key : list byte)
         (p q q1 q2 : packet) (v1 v2 : time_distribution) (i j : nat),
    packet_sign p k = Ok q -> in_range TTime v1 -> in_range TTime v2 ->
    packet_add TTime q v1 = (q1, Ok tt) -> packet_add TTime q v2 = (q2, Ok tt) ->
    snd (verify_with (ring_ed25519 from_pkcs8) key {| pntr := q1; index := i |}) = Ok true ->
    snd (verify_with (ring_ed25519 from_pkcs8) key {| pntr := q2; index := j |}) = Ok true ->
    v1 = v2.
Proof.
  intros f k key p q q1 q2 v1 v2 i j S R1 R2 A1 A2 V1 V2.
  assert (LL : forall v, length (layout TTime v) = 8).
  { intros v. cbn [layout]. reflexivity. }
  pose proof (proj2 (packet_add_ok_inv TTime q v1 q1 tt R1 A1)) as E1. pose proof (proj2 (packet_add_ok_inv TTime q v2 q2 tt R2 A2)) as E2.
  apply (p_C135_at_most_one_value_verifies f k key p q q1 q2 TTime v1 v2 i j S eq_refl eq_refl R1 R2 A1 A2); [| |exact V1|exact V2];
    subst q1 q2; unfold packet_raw; cbn [packet_bytes]; rewrite !app_length, ?LL; lia.
Qed.

(** C135 (refuted). "Adding a payload to a signed packet breaks the verification": to every signed packet the 64 raw bytes of a second
    signature can be added and [verify_with] says true (that is what signing twice does, C58); what it then leaves is the packet with
    the first signature, which a receiver takes for payload. *)
Lemma p_C135_adding_breaks_verification_refuted :
  forall (C : ed25519), ed25519_laws C ->
  forall (k : keypair C) (pk : list byte) (p q : packet) (i : nat),
    public_key k = Ok pk -> packet_sign p k = Ok q ->
    exists (raw : list byte) (q' : packet), length raw = 64 /\
      packet_add TRawEnd q (RawEnd raw) = (q', Ok tt) /\
      verify_with C pk {| pntr := q'; index := i |} = ({| pntr := q; index := i |}, Ok true).
Proof.
  intros C LW k pk p q i K S. destruct (p_C28_sign_appends C LW k q) as (q' & sig & S' & Q & L & _).
  exists sig, q'. split; [exact L|]. split.
  - rewrite p_C05_wire_layout; [|cbn; unfold vec_in_range, len; rewrite L; reflexivity|exact I]. destruct q' as [raw]. unfold packet_raw in Q. cbn [packet_bytes] in Q. subst raw. reflexivity.
  - now apply (p_C29_sign_then_verify C LW k pk).
Qed.

(** C135. The hypotheses are met: every seed gives a key pair, every packet can be signed with it and two different global times added
    to the signed packet; at most one of the two is accepted. *)
Example ex_C135_two_global_times :
  forall seed : list byte, length seed = 32 ->
  exists (k : keypair (ring_ed25519 (fun _ => None))) q q1 q2,
    keypair_from_seed_unchecked (ring_ed25519 (fun _ => None)) seed = Ok k /\ packet_sign (Packet [x09]) k = Ok q /\
    packet_add TTime q (TimeDistribution 1) = (q1, Ok tt) /\ packet_add TTime q (TimeDistribution 2) = (q2, Ok tt) /\ q1 <> q2 /\
    length (packet_raw q1) = 73 /\ length (packet_raw q2) = 73.
Proof.
  intros seed L. pose proof (p_C100_ed25519_meets_the_laws (fun _ => None)) as LW. exists seed.
  destruct (p_C28_sign_appends _ LW seed (Packet [x09])) as (q & sig & H1 & H2 & H3 & _).
  exists q. do 2 eexists. split; [unfold keypair_from_seed_unchecked; cbn; now rewrite L|]. split; [exact H1|].
  split; [now rewrite (p_C05_wire_layout TTime) by (cbn; trivial; reflexivity)|].
  split; [now rewrite (p_C05_wire_layout TTime) by (cbn; trivial; reflexivity)|]. cbn [packet_raw packet_bytes].
  split; [intros E; injection E as E; apply app_inv_head in E; vm_compute in E; discriminate E|].
  unfold packet_raw in *. cbn [packet_bytes] in *. rewrite !app_length, H2. cbn [app length]. rewrite H3. split; reflexivity.
Qed.

(** C135. And a continuation that is accepted exists: for the key of C103, the 32 zero bytes behind its constant first half. *)
Example ex_C135_accepted_continuation :
  let body := repeat x07 40 ++ neutral in
  64 <= length body /\ length (repeat x00 32) <= 32 /\
  snd (verify_with (ring_ed25519 (fun _ => None)) neutral {| pntr := Packet (body ++ [] ++ repeat x00 32); index := 0 |}) = Ok true.
Proof.
  cbv zeta. split; [vm_compute; lia|]. split; [vm_compute; lia|]. rewrite <- app_assoc. cbn [app].
  rewrite p_C103_neutral_key_accepts_everything; [reflexivity|]. now left.
Qed.
