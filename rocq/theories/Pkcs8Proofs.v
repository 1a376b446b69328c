(** * Pkcs8Proofs: which key documents are accepted *)
From Coq Require Import Strings.String.
From Verif Require Import Base Serde SerdeFacts Codec Spec Packet PacketFacts CodecFacts CryptoProofs EdField EdCurve EdSpec Sha512 Sha512Spec Ed25519 Ed25519Facts Ed25519Proofs Pkcs8 Pkcs8Spec.
Open Scope nat_scope.

(** ** Lengths *)
Ltac lens := unfold len in *; cbn [length] in *; repeat (rewrite app_length in *; cbn [length] in *); lia.

Lemma to_nat_byte_of n : n < 256 -> N.to_nat (N_of_byte (byte_of_N (N.of_nat n))) = n.
Proof. intros H. rewrite N_of_byte_of_N, N.mod_small by lia. apply Nat2N.id. Qed.
Lemma of_nat_byte x : byte_of_N (N.of_nat (N.to_nat (N_of_byte x))) = x.
Proof. rewrite N2Nat.id. apply byte_of_N_of_byte. Qed.
Lemma byte_lt x : N.to_nat (N_of_byte x) < 256.
Proof. pose proof (N_of_byte_lt x). lia. Qed.

Lemma read_length_complete n r : (N.of_nat n < 65536)%N -> read_length (der_length n ++ r) = Some (n, r).
Proof.
  intros H. unfold read_length, der_length. destruct (Nat.ltb_spec n 128) as [L|L].
  - cbn [app read_byte]. rewrite to_nat_byte_of by lia. apply Nat.ltb_lt in L. now rewrite L.
  - destruct (Nat.ltb_spec n 256) as [L2|L2]; cbn [app read_byte].
    + change (N.to_nat (N_of_byte x81)) with 129. change (129 <? 128) with false. change (129 =? 129) with true. cbn iota. rewrite to_nat_byte_of by lia.
      apply Nat.ltb_ge in L. now rewrite L.
    + change (N.to_nat (N_of_byte x82)) with 130. change (130 <? 128) with false. change (130 =? 129) with false.
      change (130 =? 130) with true. cbn iota.
      pose proof (Nat.div_lt_upper_bound n 256 256 ltac:(lia) ltac:(lia)). pose proof (Nat.mod_upper_bound n 256 ltac:(lia)).
      cbn [read_byte]. rewrite !to_nat_byte_of by lia. rewrite <- Nat.div_mod by lia. apply Nat.ltb_ge in L2. now rewrite L2.
Qed.

Lemma read_length_sound b n r : read_length b = Some (n, r) -> b = der_length n ++ r /\ (N.of_nat n < 65536)%N.
Proof.
  unfold read_length. destruct b as [|x b]; [discriminate|]. cbn [read_byte]. pose proof (byte_lt x) as Bx.
  destruct (Nat.ltb_spec (N.to_nat (N_of_byte x)) 128) as [L|L].
  { intros [= <- <-]. split; [|lia]. unfold der_length. apply Nat.ltb_lt in L. rewrite L, of_nat_byte. reflexivity. }
  destruct (Nat.eqb_spec (N.to_nat (N_of_byte x)) 129) as [E|_].
  { destruct b as [|y b]; [discriminate|]. cbn [read_byte]. pose proof (byte_lt y) as By.
    destruct (Nat.ltb_spec (N.to_nat (N_of_byte y)) 128) as [L2|L2]; [discriminate|]. intros [= <- <-]. split; [|lia].
    unfold der_length. apply Nat.ltb_ge in L2. rewrite L2. apply Nat.ltb_lt in By. rewrite By, of_nat_byte. cbn [app].
    f_equal. rewrite <- (of_nat_byte x), E. reflexivity. }
  destruct (Nat.eqb_spec (N.to_nat (N_of_byte x)) 130) as [E|_]; [|discriminate].
  destruct b as [|y b]; [discriminate|]. cbn [read_byte]. destruct b as [|z b]; [discriminate|]. cbn [read_byte].
  pose proof (byte_lt y) as By. pose proof (byte_lt z) as Bz.
  set (m := 256 * N.to_nat (N_of_byte y) + N.to_nat (N_of_byte z)).
  destruct (Nat.ltb_spec m 256) as [L2|L2]; [discriminate|]. intros [= <- <-]. split; [|unfold m; lia].
  unfold der_length. destruct (Nat.ltb_spec m 128); [lia|]. destruct (Nat.ltb_spec m 256); [lia|].
  assert (D : m / 256 = N.to_nat (N_of_byte y)) by (symmetry; apply (Nat.div_unique m 256 _ (N.to_nat (N_of_byte z))); [lia|reflexivity]).
  assert (R : m mod 256 = N.to_nat (N_of_byte z)) by (symmetry; apply (Nat.mod_unique m 256 (N.to_nat (N_of_byte y))); [lia|reflexivity]).
  rewrite D, R, !of_nat_byte. cbn [app]. f_equal. rewrite <- (of_nat_byte x), E. reflexivity.
Qed.

(** ** Elements *)
Definition low_tag (t : byte) : Prop := (N.land (N_of_byte t) 31 =? 31)%N = false.

Lemma take_complete c r : take (length c) (c ++ r) = Some (c, r).
Proof.
  unfold take. rewrite app_length. destruct (Nat.leb_spec (length c) (length c + length r)); [|lia].
  now rewrite firstn_app, Nat.sub_diag, firstn_all, firstn_O, app_nil_r, skipn_app, Nat.sub_diag, skipn_all.
Qed.
Lemma take_sound n b c r : take n b = Some (c, r) -> b = c ++ r /\ length c = n.
Proof.
  unfold take. destruct (Nat.leb_spec n (length b)) as [L|L]; [|discriminate]. intros [= <- <-].
  split; [symmetry; apply firstn_skipn|]. rewrite firstn_length. lia.
Qed.

Lemma expect_iff t b c r : low_tag t ->
  (expect_tag_and_get_value t b = Some (c, r) <-> b = der t c ++ r /\ (len c < 65536)%N).
Proof.
  intros T. unfold expect_tag_and_get_value, read_tag_and_get_value. split.
  - destruct b as [|x b]; [discriminate|]. cbn [read_byte]. destruct (N.land (N_of_byte x) 31 =? 31)%N; [discriminate|].
    destruct (read_length b) as [[n b']|] eqn:E; [|discriminate]. destruct (take n b') as [[c' r']|] eqn:E2; [|discriminate].
    destruct (Byte.eqb t x) eqn:E3; [|discriminate]. intros [= -> ->]. apply Byte.byte_dec_bl in E3 as ->.
    apply read_length_sound in E as [-> L]. apply take_sound in E2 as [-> <-]. split; [|exact L].
    unfold der. cbn [app]. now rewrite <- app_assoc.
  - intros [-> L]. unfold der. cbn [app read_byte]. unfold low_tag in T. rewrite T, <- app_assoc, read_length_complete by exact L.
    rewrite take_complete. now rewrite Byte.byte_dec_lb.
Qed.

Lemma read_all_iff {A} (f : reader A) b v : input_read_all f b = Some v <-> f b = Some (v, []).
Proof. unfold input_read_all. destruct (f b) as [[x [|y r]]|]; split; intros H; try discriminate; congruence. Qed.

Lemma nested_iff {A} t (f : reader A) b v r : low_tag t ->
  (nested t f b = Some (v, r) <-> exists c, b = der t c ++ r /\ (len c < 65536)%N /\ f c = Some (v, [])).
Proof.
  intros T. unfold nested. split.
  - destruct (expect_tag_and_get_value t b) as [[c r']|] eqn:E; [|discriminate].
    destruct (input_read_all f c) as [v'|] eqn:E2; [|discriminate]. intros [= -> ->].
    apply expect_iff in E as [-> L]; [|exact T]. exists c. now rewrite <- read_all_iff.
  - intros (c & -> & L & H). rewrite (proj2 (expect_iff t (der t c ++ r) c r T) (conj eq_refl L)).
    apply read_all_iff in H. now rewrite H.
Qed.

Lemma small_one_iff b v r : N_of_byte v = 1%N -> (small_nonnegative_integer b = Some (v, r) <-> b = der x02 [x01] ++ r).
Proof.
  intros Hv. assert (v = x01) as -> by (rewrite <- (byte_of_N_of_byte v), Hv; reflexivity).
  unfold small_nonnegative_integer. split.
  - destruct (nonnegative_integer b) as [[c r']|] eqn:E; [|discriminate].
    destruct (input_read_all read_byte c) as [y|] eqn:E2; [|discriminate]. intros [= -> ->].
    apply read_all_iff in E2. destruct c as [|y c]; [discriminate|]. injection E2 as -> ->.
    unfold nonnegative_integer in E. destruct (expect_tag_and_get_value Tag_Integer b) as [[c r']|] eqn:E3; [|discriminate].
    apply expect_iff in E3 as [-> L]; [|reflexivity].
    assert (c = [x01] /\ r' = r) as [-> ->].
    { destruct c as [|y c]; [discriminate|]. destruct (N_of_byte y =? 0)%N eqn:Z.
      - assert (y = x00) as -> by (rewrite <- (byte_of_N_of_byte y); apply N.eqb_eq in Z; rewrite Z; reflexivity).
        destruct c as [|z c]; [discriminate|]. destruct (N_of_byte z <? 128)%N eqn:Z2; [discriminate|].
        injection E as -> -> ->. discriminate.
      - assert (F : (if (128 <=? N_of_byte y)%N then None else Some (y :: c, r')) = Some ([x01], r)).
        { rewrite <- E. destruct y; try reflexivity. discriminate. }
        destruct (128 <=? N_of_byte y)%N; [discriminate|]. injection F as -> -> ->. now split. }
    reflexivity.
  - intros ->. unfold nonnegative_integer.
    rewrite (proj2 (expect_iff Tag_Integer (der x02 [x01] ++ r) [x01] r eq_refl)) by (split; [reflexivity|reflexivity]). reflexivity.
Qed.

Lemma bit_string_iff b v : bit_string_with_no_unused_bits b = Some (v, []) <-> b = der x03 (x00 :: v) /\ (len v < 65535)%N.
Proof.
  unfold bit_string_with_no_unused_bits. rewrite nested_iff by reflexivity. split.
  - intros (c & -> & L & H). destruct c as [|x c]; [discriminate|].
    assert (x = x00) as -> by (destruct x; try discriminate; reflexivity). cbn [read_byte rest] in H. injection H as ->.
    rewrite app_nil_r. split; [reflexivity|lens].
  - intros [-> L]. exists (x00 :: v). rewrite app_nil_r. split; [reflexivity|]. split; [lens|reflexivity].
Qed.

Lemma peek_der t t' c r : peek t (der t' c ++ r) = Byte.eqb t' t.
Proof. reflexivity. Qed.

(** the inner part of the document *)
Lemma der_length_le t c : length c <= length (der t c).
Proof. unfold der. cbn [length]. rewrite app_length. lia. Qed.

Lemma unwrap_inner_iff b sk pk : (len b < 65536)%N ->
  (unwrap_key_inner b = Some ((sk, pk), []) <->
   exists att, is_attributes att /\
    b = der x02 [x01] ++ der x30 (der x06 [x2b; x65; x70]) ++ der x04 sk ++ att ++ der xa1 (der x03 (x00 :: pk))).
Proof.
  intros LB. unfold unwrap_key_inner. split.
  - destruct (small_nonnegative_integer b) as [[v b1]|] eqn:E1; [|discriminate].
    destruct (N.ltb_spec 1 (N_of_byte v)) as [L|L]; [discriminate|].
    destruct (expect_tag_and_get_value Tag_Sequence b1) as [[al b2]|] eqn:E2; [|discriminate].
    destruct (bytes_eqb al alg_id) eqn:E3; [|discriminate]. cbn [negb]. apply bytes_eqb_true in E3 as ->.
    destruct (N.eqb_spec (N_of_byte v) 1) as [V|V]; [|discriminate]. cbn [negb].
    apply (small_one_iff _ _ _ V) in E1 as ->. apply expect_iff in E2 as [-> _]; [|reflexivity].
    destruct (expect_tag_and_get_value Tag_OctetString b2) as [[sk' b3]|] eqn:E4; [|discriminate].
    apply expect_iff in E4 as [-> _]; [|reflexivity].
    destruct (peek Tag_ContextSpecificConstructed0 b3) eqn:P0.
    + destruct (expect_tag_and_get_value Tag_ContextSpecificConstructed0 b3) as [[c b4]|] eqn:E5; [|discriminate].
      apply expect_iff in E5 as [-> _]; [|reflexivity].
      destruct (peek Tag_ContextSpecificConstructed1 b4); [|discriminate]. cbn [negb].
      destruct (nested Tag_ContextSpecificConstructed1 bit_string_with_no_unused_bits b4) as [[pk' b5]|] eqn:E6; [|discriminate].
      intros [= -> -> ->]. apply nested_iff in E6 as (c' & -> & _ & E6); [|reflexivity].
      apply bit_string_iff in E6 as [-> _]. exists (der xa0 c). split; [right; now exists c|]. now rewrite app_nil_r.
    + destruct (peek Tag_ContextSpecificConstructed1 b3); [|discriminate]. cbn [negb].
      destruct (nested Tag_ContextSpecificConstructed1 bit_string_with_no_unused_bits b3) as [[pk' b5]|] eqn:E6; [|discriminate].
      intros [= -> -> ->]. apply nested_iff in E6 as (c' & -> & _ & E6); [|reflexivity].
      apply bit_string_iff in E6 as [-> _]. exists []. split; [now left|]. now rewrite app_nil_r.
  - intros (att & A & ->).
    assert (Lsk : (len sk < 65536)%N).
    { pose proof (der_length_le x04 sk). lens. }
    assert (Lpk : (len pk < 65535)%N /\ (len (der x03 (x00 :: pk)) < 65536)%N).
    { pose proof (der_length_le xa1 (der x03 (x00 :: pk))) as L1. pose proof (der_length_le x03 (x00 :: pk)) as L2. cbn [length] in L2. lens. }
    assert (F : forall t c r, low_tag t -> (len c < 65536)%N -> expect_tag_and_get_value t (der t c ++ r) = Some (c, r)).
    { intros t c r T L. now apply expect_iff. }
    rewrite (proj2 (small_one_iff _ x01 _ eq_refl) eq_refl). cbn [N.ltb N.compare N_of_byte].
    change (1 <? N_of_byte x01)%N with false. cbn iota.
    rewrite (F Tag_Sequence) by reflexivity. change (bytes_eqb (der x06 [x2b; x65; x70]) alg_id) with true. cbn [negb].
    change (N_of_byte x01 =? 1)%N with true. cbn [negb]. rewrite (F Tag_OctetString) by (try reflexivity; exact Lsk).
    assert (N1 : nested Tag_ContextSpecificConstructed1 bit_string_with_no_unused_bits (der xa1 (der x03 (x00 :: pk))) = Some (pk, [])).
    { apply nested_iff; [reflexivity|]. exists (der x03 (x00 :: pk)). rewrite app_nil_r. split; [reflexivity|].
      split; [apply Lpk|]. now apply bit_string_iff. }
    destruct A as [->|[c ->]].
    + cbn [app]. change (peek Tag_ContextSpecificConstructed0 (der xa1 (der x03 (x00 :: pk)))) with false. cbn iota.
      change (peek Tag_ContextSpecificConstructed1 (der xa1 (der x03 (x00 :: pk)))) with true. cbn [negb]. now rewrite N1.
    + rewrite peek_der. change (Byte.eqb xa0 Tag_ContextSpecificConstructed0) with true. cbn iota.
      assert (Lc : (len c < 65536)%N) by (pose proof (der_length_le xa0 c); lens).
      rewrite (F Tag_ContextSpecificConstructed0) by (try reflexivity; exact Lc).
      change (peek Tag_ContextSpecificConstructed1 (der xa1 (der x03 (x00 :: pk)))) with true. cbn [negb]. now rewrite N1.
Qed.

Lemma unwrap_pkcs8_iff b seed pk :
  unwrap_pkcs8 b = Some (seed, pk) <->
  exists att, is_attributes att /\ (len (document_content seed att pk) < 65536)%N /\ b = document seed att pk.
Proof.
  unfold unwrap_pkcs8, unwrap_key. split.
  - destruct (input_read_all (nested Tag_Sequence unwrap_key_inner) b) as [[sk pk']|] eqn:E; [|discriminate].
    destruct (input_read_all (expect_tag_and_get_value Tag_OctetString) sk) as [s|] eqn:E2; [|discriminate]. intros [= -> ->].
    apply read_all_iff, nested_iff in E as (c & -> & L & E); [|reflexivity].
    apply read_all_iff, expect_iff in E2 as [-> L2]; [|reflexivity]. rewrite app_nil_r in *.
    apply unwrap_inner_iff in E as (att & A & ->); [|exact L]. exists att. split; [exact A|]. split; [exact L|reflexivity].
  - intros (att & A & L & ->).
    assert (E : nested Tag_Sequence unwrap_key_inner (document seed att pk) = Some ((der x04 seed, pk), [])).
    { apply nested_iff; [reflexivity|]. exists (document_content seed att pk). rewrite app_nil_r. split; [reflexivity|].
      split; [exact L|]. apply unwrap_inner_iff; [exact L|]. exists att. split; [exact A|reflexivity]. }
    apply read_all_iff in E. rewrite E.
    assert (E2 : expect_tag_and_get_value Tag_OctetString (der x04 seed) = Some (seed, [])).
    { apply expect_iff; [reflexivity|]. rewrite app_nil_r. split; [reflexivity|].
      pose proof (der_length_le x04 (der x04 seed)). pose proof (der_length_le x04 seed).
      unfold document_content in L. lens. }
    apply read_all_iff in E2. now rewrite E2.
Qed.

(** ** The properties *)

(** C105. [KeyPair::from_bytes] accepts exactly the version 2 documents of RFC 5958 / RFC 8410, in DER and shorter than 64 KiB, with or without
    attributes, in which the public key is that of the seed (RFC 8032, 5.1.5); the key pair is that of the seed. Everything else is
    rejected with [KeyRejectedError]; there is no panic. *)
Lemma p_C105_from_bytes_accepts_exactly :
  forall (b seed : list byte),
    (keypair_from_bytes ring_pkcs8 b = Ok seed <->
     exists attributes key, length seed = 32 /\ is_attributes attributes /\ is_public_key seed key /\
       (len (document_content seed attributes key) < 65536)%N /\ b = document seed attributes key) /\
    (keypair_from_bytes ring_pkcs8 b = Err EKeyRejectedError \/ exists s, keypair_from_bytes ring_pkcs8 b = Ok s).
Proof.
  intros b seed. unfold keypair_from_bytes. cbn [ring_pkcs8 ring_ed25519 ring_from_pkcs8]. split.
  2: { destruct (from_pkcs8 b) as [s|]; [right; now exists s|now left]. }
  assert (H : from_pkcs8 b = Some seed <-> exists key, unwrap_pkcs8 b = Some (seed, key) /\ length seed = 32 /\ is_public_key seed key).
  { unfold from_pkcs8. split.
    - destruct (unwrap_pkcs8 b) as [[s k]|]; [|discriminate]. cbn [ring_ed25519 ring_from_seed_and_public_key].
      destruct (Nat.eqb_spec (length s) 32) as [L|L]; [|discriminate].
      destruct (bytes_eqb k (ed_public_key s)) eqn:E; [|discriminate]. intros X. apply some_inj in X. subst s.
      apply bytes_eqb_true in E. exists k. split; [reflexivity|]. split; [exact L|]. now apply public_key_spec.
    - intros (k & -> & L & P). cbn [ring_ed25519 ring_from_seed_and_public_key]. apply public_key_spec in P; [|exact L].
      apply Nat.eqb_eq in L. rewrite L. apply bytes_eqb_true in P. now rewrite P. }
  transitivity (from_pkcs8 b = Some seed).
  { destruct (from_pkcs8 b) as [s|]; cbn [ok_or]; split; intros X; try discriminate X; injection X as ->; reflexivity. }
  rewrite H. split.
  - intros (key & U & L & P). apply unwrap_pkcs8_iff in U as (att & A & Lc & E). exists att, key. exact (conj L (conj A (conj P (conj Lc E)))).
  - intros (att & key & L & A & P & Lc & E). exists key. split; [|now split]. apply unwrap_pkcs8_iff. exists att. exact (conj A (conj Lc E)).
Qed.

Lemma wrap_key_document seed key : length seed = 32 -> length key = 32 -> wrap_key seed key = document seed [] key.
Proof.
  intros L1 L2. unfold wrap_key, document, document_content.
  assert (D1 : der x04 (der x04 seed) = [x04; x22; x04; x20] ++ seed).
  { unfold der at 2. rewrite L1. unfold der. cbn [length app]. rewrite app_length, L1. reflexivity. }
  assert (D2 : der xa1 (der x03 (x00 :: key)) = [xa1; x23; x03; x21; x00] ++ key).
  { unfold der at 2. cbn [length]. rewrite L2. unfold der. cbn [length app]. rewrite app_length. cbn [length]. rewrite L2. reflexivity. }
  rewrite D1, D2. unfold der at 1. rewrite !app_length, L1, L2. reflexivity.
Qed.

(** C106. [KeyPair::new] fails only when the system has no randomness to give; whatever 32 bytes it gives, the result is
    the key pair of these as a seed. *)
Lemma p_C106_new_gives_the_key_pair_of_the_random_seed :
  forall random : option (list byte),
    (forall seed, random = Some seed -> length seed = 32) ->
    keypair_new ring_pkcs8 (generate_pkcs8 random) =
      match random with
      | Some seed => keypair_from_seed_unchecked ring_pkcs8 seed
      | None => Err EKeyGenerationError
      end /\
    forall seed, random = Some seed ->
      exists k key, keypair_new ring_pkcs8 (generate_pkcs8 random) = Ok k /\ public_key k = Ok key /\ is_public_key seed key.
Proof.
  intros [seed|] H; cbn [generate_pkcs8 keypair_new ok_or bind]; [|split; [reflexivity|discriminate]].
  specialize (H seed eq_refl).
  assert (E : keypair_from_bytes ring_pkcs8 (wrap_key seed (ed_public_key seed)) = Ok seed).
  { apply (p_C105_from_bytes_accepts_exactly (wrap_key seed (ed_public_key seed)) seed).
    exists [], (ed_public_key seed). split; [exact H|]. split; [now left|]. split; [now apply public_key_spec|].
    rewrite wrap_key_document by (try assumption; apply compress_length). split; [|reflexivity].
    pose proof (compress_length (ext_mul (secret_scalar seed) base_point)) as L. change (length (ed_public_key seed) = 32) in L.
    pose proof (wrap_key_document seed (ed_public_key seed) H L) as W. apply (f_equal (@length byte)) in W.
    unfold document in W. pose proof (der_length_le x30 (document_content seed [] (ed_public_key seed))) as D. rewrite <- W in D.
    unfold wrap_key in D. rewrite !app_length, H, L in D. cbn [length] in D. unfold len. lia. }
  assert (K : keypair_from_seed_unchecked ring_pkcs8 seed = Ok seed).
  { unfold keypair_from_seed_unchecked. cbn [ring_pkcs8 ring_ed25519 ring_from_seed_unchecked]. rewrite H. reflexivity. }
  split; [now rewrite K|]. intros s [= <-]. exists seed, (ed_public_key seed). split; [exact E|].
  split; [exact (public_key_ok _ (p_C100_ed25519_meets_the_laws from_pkcs8) seed)|]. now apply public_key_spec.
Qed.

(** C107. Documents are canonical: for every key pair there is exactly one accepted document without attributes, the one that
    [KeyPair::new] generates; no other bytes (other lengths, trailing bytes, another version number) are read as that key pair. *)
Lemma p_C107_one_document_per_key :
  forall (b seed : list byte),
    keypair_from_bytes ring_pkcs8 b = Ok seed ->
    Some b = generate_pkcs8 (Some seed) \/
    exists content key, b = document seed (der xa0 content) key /\ is_public_key seed key.
Proof.
  intros b seed H. apply (p_C105_from_bytes_accepts_exactly b seed) in H as (att & key & L & A & P & _ & ->).
  destruct A as [->|[c ->]]; [left|right; now exists c, key].
  pose proof P as P'. apply public_key_spec in P'; [|exact L]. subst key. cbn [generate_pkcs8]. f_equal.
  symmetry. apply wrap_key_document; [exact L|apply compress_length].
Qed.

(** C107. The documents without a public key that other software writes (version 1 of PKCS#8, RFC 8410, section 7) are rejected, whatever
    the seed. *)
Lemma p_C107_old_documents_rejected :
  forall seed : list byte, length seed = 32 -> keypair_from_bytes ring_pkcs8 (document_v1 seed) = Err EKeyRejectedError.
Proof.
  intros seed L. destruct (p_C105_from_bytes_accepts_exactly (document_v1 seed) seed) as [_ [H|[s H]]]; [exact H|exfalso].
  apply (p_C105_from_bytes_accepts_exactly (document_v1 seed) s) in H as (att & key & Ls & _ & _ & Lc & E).
  unfold document_v1, document in E.
  set (c := der x02 [x00] ++ der x30 (der x06 [x2b; x65; x70]) ++ der x04 (der x04 seed)) in *.
  assert (X : expect_tag_and_get_value x30 (der x30 c ++ []) = Some (c, [])).
  { apply expect_iff; [reflexivity|]. split; [reflexivity|]. unfold c, der, len. cbn [length]. repeat (rewrite app_length; cbn [length]).
    rewrite L. reflexivity. }
  rewrite E in X. apply expect_iff in X as [X _]; [|reflexivity]. rewrite !app_nil_r in X.
  assert (Y : expect_tag_and_get_value x30 (der x30 (document_content s att key) ++ []) = Some (c, [])).
  { apply expect_iff; [reflexivity|]. rewrite !app_nil_r. split; [exact X|].
    unfold c, der, len. cbn [length]. repeat (rewrite app_length; cbn [length]). rewrite L. reflexivity. }
  rewrite (proj2 (expect_iff x30 _ (document_content s att key) [] eq_refl) (conj eq_refl Lc)) in Y.
  injection Y as Y. unfold document_content, c in Y. discriminate Y.
Qed.

Lemma generated_accepted seed : length seed = 32 ->
  keypair_from_bytes ring_pkcs8 (wrap_key seed (ed_public_key seed)) = Ok seed /\ length (wrap_key seed (ed_public_key seed)) = 85.
Proof.
  intros H. pose proof (compress_length (ext_mul (secret_scalar seed) base_point)) as L. change (length (ed_public_key seed) = 32) in L.
  split.
  - destruct (p_C106_new_gives_the_key_pair_of_the_random_seed (Some seed)) as [E _]; [intros s [= <-]; exact H|].
    cbn [generate_pkcs8 keypair_new ok_or bind] in E. rewrite E. unfold keypair_from_seed_unchecked.
    cbn [ring_pkcs8 ring_ed25519 ring_from_seed_unchecked]. rewrite H. reflexivity.
  - unfold wrap_key. rewrite !app_length, L, H. reflexivity.
Qed.
Lemma attributes_accepted seed : length seed = 32 ->
  keypair_from_bytes ring_pkcs8 (document seed (der xa0 [x01; x02; x03]) (ed_public_key seed)) = Ok seed.
Proof.
  intros H. apply (p_C105_from_bytes_accepts_exactly (document seed (der xa0 [x01; x02; x03]) (ed_public_key seed)) seed).
  exists (der xa0 [x01; x02; x03]), (ed_public_key seed). split; [exact H|]. split; [right; now eexists|].
  split; [now apply public_key_spec|]. split; [|reflexivity].
  pose proof (compress_length (ext_mul (secret_scalar seed) base_point)) as L. change (length (ed_public_key seed) = 32) in L.
  unfold document_content, der, len. cbn [length]. repeat (rewrite app_length; cbn [length]). rewrite L, H. reflexivity.
Qed.

(** the hypotheses of C105 and C107 are met: by the document generated for a seed, and by one with attributes *)
Example ex_C105_accepted :
  exists b, keypair_from_bytes ring_pkcs8 b = Ok (repeat x05 32) /\ length b = 85.
Proof. eexists. apply generated_accepted. reflexivity. Qed.
Example ex_C105_with_attributes :
  exists key, keypair_from_bytes ring_pkcs8 (document (repeat x05 32) (der xa0 [x01; x02; x03]) key) = Ok (repeat x05 32).
Proof. eexists. apply attributes_accepted. reflexivity. Qed.
