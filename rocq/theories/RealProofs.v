(** * RealProofs: the properties of signatures with Ed25519 itself (C30, C37, C58, C71, C92, C112)

    Instances of the theorems that were proved for an arbitrary scheme meeting [ed25519_laws], for the scheme of Ed25519.v and Pkcs8.v, which
    meets them (C100). What is left is stated in the terms of RFC 8032 (EdSpec.v). *)
From Coq Require Import Strings.String.
From Verif Require Import Base Serde Codec Universe Spec SerdeFacts CodecFacts UniverseFacts Packet Client PacketFacts HeaderProofs CodecProofs CursorProofs CryptoProofs Community CommunitySpec CommunityProofs Network NetSpec NetworkProofs EndToEndSpec EndToEndProofs LivenessSpec Ipv8 Ipv8Spec Ipv8Proofs World WorldSpec WorldProofs OverlayProofs WorldLiveSpec WorldLiveProofs PyBinding PyProofs EdField EdCurve EdSpec Sha512 Sha512Spec Ed25519 Ed25519Proofs Pkcs8 OverlayLiveProofs.
Open Scope nat_scope.

Lemma real_laws : ed25519_laws ring_pkcs8.
Proof. apply p_C100_ed25519_meets_the_laws. Qed.

Lemma from_seed_iff seed k : keypair_from_seed_unchecked ring_pkcs8 seed = Ok k <-> length seed = 32 /\ k = seed.
Proof.
  unfold keypair_from_seed_unchecked. cbn [ring_pkcs8 ring_ed25519 ring_from_seed_unchecked].
  destruct (Nat.eqb_spec (length seed) 32) as [E|E]; cbn [ok_or]; split; intros H.
  - injection H as <-. auto.
  - destruct H as [_ ->]. reflexivity.
  - discriminate H.
  - now destruct H.
Qed.

Lemma is_public_key_iff seed key : length seed = 32 -> (ring_public_key ring_pkcs8 seed = key <-> is_public_key seed key).
Proof.
  intros L. assert (K : keypair_from_seed_unchecked ring_pkcs8 seed = Ok seed) by (apply from_seed_iff; auto).
  pose proof (p_C104_public_key_of_a_seed from_pkcs8 seed key seed K) as H. rewrite <- H.
  assert (P : @public_key (ring_ed25519 from_pkcs8) seed = Ok (ring_public_key ring_pkcs8 seed)) by exact (public_key_ok ring_pkcs8 real_laws seed).
  rewrite P. split; [intros ->; reflexivity | intros E; now injection E].
Qed.

Lemma is_public_key_length seed key : is_public_key seed key -> length key = 32.
Proof. intros (B & d & a & _ & _ & _ & [L _]). exact L. Qed.

(** C30. [verify_with] accepts exactly the packets that are a message followed by a valid signature of it in the sense of RFC 8032, 5.1.7,
    under the given key; it then leaves the message in the deserializer. It rejects all other packets of 64 bytes or more. *)
Lemma p_C30_rfc8032 :
  forall (pk p : list byte) (i : nat),
    (len p < 2 ^ 64)%N ->
    (forall d, verify_with ring_pkcs8 pk {| pntr := Packet p; index := i |} = (d, Ok true) <->
     exists msg sig, p = msg ++ sig /\ valid_signature pk msg sig /\ d = {| pntr := Packet msg; index := i |}) /\
    (64 <= length p ->
     (forall msg sig, p = msg ++ sig -> ~ valid_signature pk msg sig) ->
     snd (verify_with ring_pkcs8 pk {| pntr := Packet p; index := i |}) = Ok false).
Proof.
  intros pk p i Lp.
  assert (V : forall msg sig, p = msg ++ sig -> (verify_raw ring_pkcs8 pk msg sig = true <-> valid_signature pk msg sig)).
  { intros msg sig E. apply p_C101_verify_is_the_group_equation. subst p. unfold len in *. rewrite app_length in Lp. lia. }
  assert (LS : forall msg sig, valid_signature pk msg sig -> length sig = 64).
  { intros msg sig (B & A & R & r & s & dg & _ & _ & -> & [Lr _] & Ls & _). rewrite app_length. lia. }
  assert (Split : firstn (length p - 64) p ++ skipn (length p - 64) p = p) by apply firstn_skipn.
  unfold verify_with. cbn [pntr index packet_bytes packet_raw]. change ED25519_SIGNATURE_BYTES with 64. split.
  - intros d. destruct (Nat.ltb_spec (length p) 64) as [Lt|Ge]; split; intros H.
    + discriminate H.
    + destruct H as (msg & sig & E & Hv & _). apply LS in Hv. subst p. rewrite app_length in Lt. lia.
    + injection H as <- H. exists (firstn (length p - 64) p), (skipn (length p - 64) p).
      split; [now symmetry|]. split; [apply V; [now symmetry|exact H] | reflexivity].
    + destruct H as (msg & sig & E & Hv & ->). pose proof (LS _ _ Hv) as Lg.
      assert (Em : length p - 64 = length msg) by (subst p; rewrite app_length; lia).
      rewrite Em, E. rewrite firstn_app, firstn_all, Nat.sub_diag, firstn_O, app_nil_r.
      rewrite skipn_app, skipn_all, Nat.sub_diag. cbn [app skipn].
      f_equal. f_equal. apply V; assumption.
  - intros Ge N. destruct (Nat.ltb_spec (length p) 64) as [Lt|_]; [lia|]. cbn [snd]. f_equal.
    destruct (verify_raw ring_pkcs8 pk _ _) eqn:E; [|reflexivity]. exfalso.
    apply (N (firstn (length p - 64) p) (skipn (length p - 64) p)); [now symmetry|]. apply V; [now symmetry|exact E].
Qed.

(** C37. [from_seed_checked] accepts exactly the 32-byte seeds with the public key that RFC 8032, 5.1.5, gives them. *)
Lemma p_C37_rfc8032 :
  forall (seed pk : list byte),
    ((exists k, keypair_from_seed_checked ring_pkcs8 seed pk = Ok k) <-> length seed = 32 /\ is_public_key seed pk) /\
    (forall k, keypair_from_seed_checked ring_pkcs8 seed pk = Ok k -> public_key k = Ok pk /\ keypair_from_seed_unchecked ring_pkcs8 seed = Ok k).
Proof.
  intros seed pk. split.
  - split.
    + intros [k H]. apply (p_C37_from_seed_checked _ real_laws) in H as [K P]. apply from_seed_iff in K as [L ->].
      split; [exact L|]. apply is_public_key_iff; [exact L|]. rewrite (public_key_ok _ real_laws) in P. now injection P.
    + intros [L P]. exists seed. apply (p_C37_from_seed_checked _ real_laws). split; [apply from_seed_iff; auto|].
      rewrite (public_key_ok _ real_laws). f_equal. apply is_public_key_iff; assumption.
  - intros k H. apply (p_C37_from_seed_checked _ real_laws) in H as [K P]. auto.
Qed.

(** C58. The stack of signatures, with real keys: whatever seeds sign a packet one after the other, verification under their public keys (RFC
    8032), in the opposite order, succeeds every time and gives the original packet back. *)
Lemma p_C58_with_the_real_signatures :
  forall (seeds : list (keypair ring_pkcs8)) (keys : list (list byte)) (p q : packet) (i : nat),
    Forall2 (fun seed key => length seed = 32 /\ is_public_key seed key) seeds keys ->
    sign_all seeds p = Ok q ->
    verify_all ring_pkcs8 (rev keys) {| pntr := q; index := i |}
    = ({| pntr := p; index := i |}, Ok (map (fun _ => true) seeds)) /\
    length (packet_raw q) = length (packet_raw p) + 64 * length seeds.
Proof.
  intros seeds keys p q i F S.
  assert (E : keys = map (ring_public_key ring_pkcs8) seeds).
  { induction F as [|s k ss ks [L P] F IH]; [reflexivity|]. cbn [map]. f_equal; [|].
    - symmetry. apply is_public_key_iff; assumption.
    - apply IHF || (clear - F; induction F as [|s k ss ks [L P] F IH]; [reflexivity|]; cbn [map]; f_equal; [symmetry; apply is_public_key_iff; assumption|exact IH]). }
  subst keys. exact (p_C58_signature_stack ring_pkcs8 real_laws seeds p q i S).
Qed.

(** C112. [create_signature] of the Python module: it returns something exactly for a 32-byte seed with its public key (RFC 8032, 5.1.5), and then
    the data followed by the signature that RFC 8032, 5.1.6, defines; for everything else it raises KeyError. It never panics. *)
Lemma p_C112_create_signature :
  forall (seed key data : list byte),
    (len data < 2 ^ 64)%N ->
    (forall out, borrowed_create_signature ring_pkcs8 seed key data = PyOk out <->
       length seed = 32 /\ is_public_key seed key /\ exists sig, is_signature seed data sig /\ out = data ++ sig) /\
    ((exists out, borrowed_create_signature ring_pkcs8 seed key data = PyOk out) \/
     (exists m, borrowed_create_signature ring_pkcs8 seed key data = PyKeyError m)).
Proof.
  intros seed key data Ld.
  destruct (p_C39_create_signature ring_pkcs8 real_laws seed key data) as (H1 & H2 & H3).
  assert (SG : length seed = 32 -> forall sig, is_signature seed data sig <-> sig = ring_sign ring_pkcs8 seed data).
  { intros L sig. assert (K : keypair_from_seed_unchecked ring_pkcs8 seed = Ok seed) by (apply from_seed_iff; auto).
    pose proof (p_C104_signature_of_a_seed from_pkcs8 seed data seed (Packet (data ++ sig)) K Ld) as S.
    fold ring_pkcs8 in S. rewrite (sign_ok ring_pkcs8 real_laws) in S. cbn [packet_raw] in S. split.
    - intros I. assert (X : exists sig0, is_signature seed data sig0 /\ Packet (data ++ sig) = Packet (data ++ sig0)) by eauto.
      apply S in X. injection X as X. now apply app_inv_head in X.
    - intros ->. destruct S as [S _]. destruct (S eq_refl) as (s' & I & E). injection E as E. apply app_inv_head in E. rewrite <- E in I. exact I. }
  destruct (Nat.eq_dec (length key) 32) as [Lk|Lk].
  2:{ rewrite (H1 Lk). split; [|right; eauto]. intros out. split; [discriminate|]. intros (_ & P & _). now apply is_public_key_length in P. }
  destruct (Nat.eq_dec (length seed) 32) as [Ls|Ls].
  2:{ rewrite (H2 Lk Ls). split; [|right; eauto]. intros out. split; [discriminate|]. now intros [? _]. }
  destruct (H3 Lk Ls) as (k & K & B1 & B2).
  assert (k = seed) as ->.
  { revert K. cbn [ring_pkcs8 ring_ed25519 ring_from_seed_unchecked]. rewrite Ls. cbn [Nat.eqb]. congruence. }
  destruct (list_eq_dec byte_eq_dec (ring_public_key ring_pkcs8 seed) key) as [E|E].
  - destruct (B2 E) as [R _]. rewrite R. split; [|left; eauto]. intros out. split.
    + intros X. injection X as <-. split; [exact Ls|]. split; [now apply is_public_key_iff|].
      eexists. split; [apply SG; [exact Ls|reflexivity]|reflexivity].
    + intros (_ & _ & sig & I & ->). apply SG in I; [|exact Ls]. now rewrite I.
  - rewrite (B1 E). split; [|right; eauto]. intros out. split; [discriminate|]. intros (_ & P & _). apply is_public_key_iff in P; [|exact Ls].
    contradiction.
Qed.

(** A list of at least [k] elements begins with [k] elements. *)
Lemma split_at {A} k (l : list A) : k <= length l -> exists a b, l = a ++ b /\ length a = k.
Proof. intros H. exists (firstn k l), (skipn k l). split; [symmetry; apply firstn_skipn | apply firstn_length_le, H]. Qed.

Lemma pyok_pair {A B} (a c : A) (b d : B) : PyOk (a, b) = PyOk (c, d) -> a = c /\ b = d.
Proof. intros H. injection H as -> ->. auto. Qed.

Lemma skipn_step {A} k (a b : list A) : length a <= k -> skipn k (a ++ b) = skipn (k - length a) b.
Proof. intros H. rewrite skipn_app, skipn_all2 by exact H. reflexivity. Qed.

(** What [verify_signature] accepts, for any scheme *)
Lemma py_accepts_iff (C : ed25519) (auth data body : list byte) :
  borrowed_verify_signature C auth data = PyOk (true, body) <->
  exists mid mt n ekey key sig,
    length mid = 20 /\ length ekey = 32 /\ length key = 32 /\ (74 <= n < 65536)%N /\ length sig = 64 /\
    let msg := [x00; x02] ++ mid ++ [mt] ++ u16_bytes n ++ ascii "LibNaCLPK:" ++ ekey ++ key ++ body in
    data = msg ++ sig /\ 25 + N.to_nat n <= length data /\ ring_verify C key msg sig = true.
Proof.
  destruct (p_C40_verify_signature C auth data) as (H1 & H2 & H3 & H4 & H5 & H6). split.
  - intros H.
    set (n := N.to_nat (u16_at data 23)) in *.
    assert (D1 : 23 <= length data /\ byte_at data 0 = x00 /\ byte_at data 1 = x02).
    { destruct (le_lt_dec 23 (length data)); [|rewrite H1 in H by lia; discriminate H].
      destruct (byte_eq_dec (byte_at data 0) x00); [|rewrite H1 in H by tauto; discriminate H].
      destruct (byte_eq_dec (byte_at data 1) x02); [|rewrite H1 in H by tauto; discriminate H]. auto. }
    clear H1. specialize (H2 D1). specialize (H3 D1). specialize (H4 D1). specialize (H5 D1). specialize (H6 D1).
    assert (D2 : 25 <= length data /\ 25 + n <= length data).
    { destruct (le_lt_dec 25 (length data)); [|rewrite H2 in H by lia; discriminate H].
      destruct (le_lt_dec (25 + n) (length data)); [|rewrite H2 in H by lia; discriminate H]. auto. }
    clear H2. specialize (H3 D2). specialize (H4 D2). specialize (H5 D2). specialize (H6 D2).
    destruct (le_lt_dec 10 n) as [N10|N10]; [|rewrite H4 in H by (left; exact N10); discriminate H].
    destruct (list_eq_dec byte_eq_dec (firstn 10 (skipn 25 data)) (ascii "LibNaCLPK:")) as [D3|D3];
      [|rewrite H3 in H by assumption; discriminate H].
    destruct (le_lt_dec 74 n) as [D4|D4]; [|rewrite H4 in H by (right; auto); discriminate H].
    destruct (le_lt_dec 163 (length data)) as [D5|D5]; [|rewrite H5 in H by assumption; discriminate H].
    specialize (H6 D4 D3 D5). rewrite H6 in H. apply pyok_pair in H as [V B]. clear H3 H4 H5 H6.
    destruct D1 as (_ & B0 & B1). destruct D2 as (_ & D2).
    destruct (split_at (length data - 64) data ltac:(lia)) as (msg & sig & E & Lm).
    assert (Ls : length sig = 64) by (rewrite E, app_length in Lm, D5; lia).
    assert (F : firstn (length data - 64) data = msg) by (rewrite <- Lm; rewrite E at 1; rewrite firstn_app, firstn_all, Nat.sub_diag, firstn_O, app_nil_r; reflexivity).
    assert (G : skipn (length data - 64) data = sig) by (rewrite <- Lm; rewrite E at 1; rewrite skipn_app, skipn_all, Nat.sub_diag; reflexivity).
    rewrite F, G in V. rewrite F in B. clear F G.
    assert (L99 : 99 <= length msg) by (rewrite Lm; lia).
    destruct (split_at 99 msg L99) as (hd & tl & Em & Lh).
    destruct (split_at 2 hd ltac:(lia)) as (h1 & hd1 & -> & L1). rewrite app_length in Lh.
    destruct (split_at 20 hd1 ltac:(lia)) as (mid & hd2 & -> & L2). rewrite app_length in Lh.
    destruct (split_at 1 hd2 ltac:(lia)) as (m1 & hd3 & -> & L3). rewrite app_length in Lh.
    destruct (split_at 2 hd3 ltac:(lia)) as (n2 & hd4 & -> & L4). rewrite app_length in Lh.
    destruct (split_at 10 hd4 ltac:(lia)) as (pre & hd5 & -> & L5). rewrite app_length in Lh.
    destruct (split_at 32 hd5 ltac:(lia)) as (ekey & key & -> & L6). rewrite app_length in Lh.
    assert (L7 : length key = 32) by lia.
    rewrite <- !app_assoc in Em. rewrite Em in E. rewrite <- !app_assoc in E.
    assert (S2 : skipn 23 data = n2 ++ pre ++ ekey ++ key ++ tl ++ sig).
    { rewrite E. do 3 (rewrite skipn_step by lia). rewrite L1, L2, L3. reflexivity. }
    assert (S3 : skipn 25 data = pre ++ ekey ++ key ++ tl ++ sig).
    { rewrite E. do 4 (rewrite skipn_step by lia). rewrite L1, L2, L3, L4. reflexivity. }
    assert (S4 : skipn 67 data = key ++ tl ++ sig).
    { rewrite E. do 6 (rewrite skipn_step by lia). rewrite L1, L2, L3, L4, L5, L6. reflexivity. }
    assert (S5 : skipn 99 msg = tl).
    { rewrite Em. do 7 (rewrite skipn_step by lia). rewrite L1, L2, L3, L4, L5, L6, L7. reflexivity. }
    rewrite S3, firstn_app_exact in D3 by exact L5. rewrite S4, firstn_app_exact in V by exact L7. rewrite S5 in B. subst tl.
    pose proof (u16_layout_at data 23 ltac:(lia)) as U. rewrite S2, firstn_app_exact in U by exact L4.
    destruct m1 as [|mt [|? ?]]; try discriminate L3.
    assert (h1 = [x00; x02]) as ->.
    { destruct h1 as [|u [|v [|? ?]]]; try discriminate L1. rewrite E in B0, B1. cbn in B0, B1. congruence. }
    exists mid, mt, (u16_at data 23), ekey, key, sig.
    split; [exact L2|]. split; [exact L6|]. split; [exact L7|].
    split. { unfold n in D4. pose proof (u16_at_lt data 23). change (2 ^ 16)%N with 65536%N in *. lia. }
    split; [exact Ls|]. rewrite U, <- D3. cbn zeta. rewrite <- Em.
    split; [rewrite E at 1; rewrite Em, <- !app_assoc; reflexivity|]. split; [exact D2|exact V].
  - intros (mid & mt & n & ekey & key & sig & L2 & L6 & L7 & Hn & Ls & E & D2 & V).
    set (msg := [x00; x02] ++ mid ++ [mt] ++ u16_bytes n ++ ascii "LibNaCLPK:" ++ ekey ++ key ++ body) in *.
    assert (E' : data = [x00; x02] ++ mid ++ [mt] ++ u16_bytes n ++ ascii "LibNaCLPK:" ++ ekey ++ key ++ body ++ sig)
      by (rewrite E; unfold msg; rewrite <- !app_assoc; reflexivity).
    assert (Lm : 99 <= length msg) by (unfold msg; rewrite !app_length, L2, L6, L7; change (length (u16_bytes n)) with 2; change (length (ascii "LibNaCLPK:")) with 10; cbn [length]; lia).
    assert (Ld : length data = length msg + 64) by (rewrite E, app_length; lia).
    assert (Un : u16_at data 23 = n).
    { replace (u16_at data 23) with (u16_at (skipn 23 data) 0) by (rewrite u16_at_skipn; reflexivity).
      rewrite E'. do 3 (rewrite skipn_step by (cbn [length]; lia)). rewrite L2. apply u16_at_layout. change (2 ^ 16)%N with 65536%N. lia. }
    assert (S3 : skipn 25 data = ascii "LibNaCLPK:" ++ ekey ++ key ++ body ++ sig).
    { rewrite E'. do 4 (rewrite skipn_step by (cbn [length u16_bytes bs map]; lia)). rewrite L2. reflexivity. }
    assert (S4 : skipn 67 data = key ++ body ++ sig).
    { change 67 with (25 + 42). rewrite <- skipn_skipn', S3. do 2 (rewrite skipn_step by (cbn; lia)). rewrite L6. reflexivity. }
    rewrite Un in *.
    rewrite H6.
    + rewrite S4, firstn_app_exact by exact L7. replace (length data - 64) with (length msg) by lia.
      rewrite E, firstn_app_exact, skipn_app_exact by reflexivity. rewrite V. do 2 f_equal.
      assert (Lu : length (u16_bytes n) = 2) by reflexivity. assert (La : length (ascii "LibNaCLPK:") = 10) by reflexivity.
      unfold msg. do 6 (rewrite skipn_step by (cbn [length]; lia)). rewrite L2, L6, Lu, La. apply skipn_app_exact. exact L7.
    + split; [lia|]. rewrite E'. split; reflexivity.
    + split; lia.
    + lia.
    + rewrite S3. apply firstn_app_exact. reflexivity.
    + lia.
Qed.

(** C112. [verify_signature] of the Python module says true exactly for a header, an authentication payload (whose announced length may be more than
    its 74 bytes, as long as that many bytes follow), any bytes, and a signature over all of it that is valid under the embedded key by RFC 8032,
    5.1.7; it returns these bytes. *)
Lemma p_C112_verify_signature :
  forall (auth data body : list byte),
    (len data < 2 ^ 64)%N ->
    (borrowed_verify_signature ring_pkcs8 auth data = PyOk (true, body) <->
     exists mid mt n ekey key sig,
       length mid = 20 /\ length ekey = 32 /\ length key = 32 /\ (74 <= n < 65536)%N /\
       let msg := [x00; x02] ++ mid ++ [mt] ++ u16_bytes n ++ ascii "LibNaCLPK:" ++ ekey ++ key ++ body in
       data = msg ++ sig /\ 25 + N.to_nat n <= length data /\ valid_signature key msg sig).
Proof.
  intros auth data body Ld. rewrite py_accepts_iff.
  split; intros (mid & mt & n & ekey & key & sig & H); exists mid, mt, n, ekey, key, sig; cbn zeta in *.
  - destruct H as (L2 & L6 & L7 & Hn & Ls & E & D2 & V). repeat (split; [assumption|]).
    apply (p_C101_verify_is_the_group_equation from_pkcs8); [|exact V].
    unfold len in *. rewrite E, app_length in Ld. lia.
  - destruct H as (L2 & L6 & L7 & Hn & E & D2 & V). repeat (split; [assumption|]). split.
    { destruct V as (B & A & R & r & s & dg & _ & _ & -> & [Lr _] & Ls & _). rewrite app_length. lia. }
    repeat (split; [assumption|]).
    apply (p_C101_verify_is_the_group_equation from_pkcs8) in V; [exact V|].
    unfold len in *. rewrite E, app_length in Ld. lia.
Qed.

(** C112. Python to Rust: what [create_signature] returns, [verify_with] accepts under the same key, and restores the data. *)
Lemma p_C112_python_to_rust :
  forall (seed key data out : list byte) (i : nat),
    borrowed_create_signature ring_pkcs8 seed key data = PyOk out ->
    verify_with ring_pkcs8 key {| pntr := Packet out; index := i |} = ({| pntr := Packet data; index := i |}, Ok true).
Proof.
  intros seed key data out i H.
  destruct (p_C39_create_signature ring_pkcs8 real_laws seed key data) as (H1 & H2 & H3).
  destruct (Nat.eq_dec (length key) 32) as [Lk|Lk]; [|rewrite (H1 Lk) in H; discriminate H].
  destruct (Nat.eq_dec (length seed) 32) as [Ls|Ls]; [|rewrite (H2 Lk Ls) in H; discriminate H].
  destruct (H3 Lk Ls) as (k & _ & B1 & B2).
  destruct (list_eq_dec byte_eq_dec (ring_public_key ring_pkcs8 k) key) as [E|E]; [|rewrite (B1 E) in H; discriminate H].
  destruct (B2 E) as [R _].
  apply (p_C29_sign_then_verify ring_pkcs8 real_laws k).
  - rewrite (public_key_ok _ real_laws), E. reflexivity.
  - rewrite (sign_ok ring_pkcs8 real_laws). do 2 f_equal. rewrite R in H.
    assert (X : forall a b : list byte, PyOk a = PyOk b -> a = b) by (intros a b Y; now injection Y). exact (X _ _ H).
Qed.

(** C112. Rust to Python: a packet made by the API - header, authentication payload with the signer's key, any bytes that payloads put behind it -
    and signed with the key pair of a seed is accepted by [verify_signature], which returns the bytes behind the authentication payload. *)
Lemma p_C112_rust_to_python :
  forall (seed pk ekey mid : list byte) (mt : byte) (l : list payload) (key : keypair ring_pkcs8) (p0 p1 unsigned signed : packet) (auth : list byte),
    keypair_from_seed_unchecked ring_pkcs8 seed = Ok key -> is_public_key seed pk -> length ekey = 32 -> length mid = 20 ->
    packet_new (py_ipv8_header mid mt) = Ok p0 ->
    packet_add TBinMember p0 (BinMember pk ekey) = (p1, Ok tt) ->
    add_all p1 l = Ok unsigned ->
    packet_sign unsigned key = Ok signed ->
    borrowed_verify_signature ring_pkcs8 auth (packet_raw signed) = PyOk (true, skipn (length (packet_raw p1)) (packet_raw unsigned)).
Proof.
  intros seed pk ekey mid mt l key p0 p1 unsigned signed auth K P Le Lm Hp Ha Hl Hs.
  apply from_seed_iff in K as [L ->]. pose proof (is_public_key_length _ _ P) as Lp.
  assert (Ra : in_range TBinMember (BinMember pk ekey)) by (cbn; auto).
  unfold py_ipv8_header in Hp. rewrite packet_new_complete, byte_of_N_of_byte in Hp. injection Hp as <-.
  apply packet_add_ok_inv in Ha; [|exact Ra]. destruct Ha as [_ ->].
  destruct (add_all_prefix _ _ _ Hl) as [m E]. rewrite (sign_ok ring_pkcs8 real_laws) in Hs.
  assert (Es : signed = Packet (packet_bytes unsigned ++ ring_sign ring_pkcs8 seed (packet_bytes unsigned))) by congruence. subst signed. clear Hs Hl.
  cbn [packet_bytes] in E. 
  match goal with |- _ = PyOk (true, ?b) => assert (Eb : b = m) by (unfold packet_raw; cbn [packet_bytes]; rewrite E; apply skipn_app_exact; reflexivity); rewrite Eb end.
  apply py_accepts_iff.
  exists mid, mt, 74%N, ekey, pk, (ring_sign ring_pkcs8 seed (packet_bytes unsigned)).
  split; [exact Lm|]. split; [exact Le|]. split; [exact Lp|]. split; [lia|]. split; [apply (ring_sign_length _ real_laws)|].
  assert (Em : [x00; x02] ++ mid ++ [mt] ++ u16_bytes 74 ++ ascii "LibNaCLPK:" ++ ekey ++ pk ++ m = packet_bytes unsigned).
  { rewrite E. unfold header_layout. cbn [layout]. unfold auth_layout. cbn [bm_public_key_bin]. rewrite <- !app_assoc. reflexivity. }
  cbn zeta. rewrite Em. split; [reflexivity|]. split.
  - change (N.to_nat 74) with 74. unfold packet_raw. cbn [packet_bytes]. rewrite app_length, (ring_sign_length _ real_laws). rewrite <- Em, !app_length, Lm, Le, Lp.
    change (length (u16_bytes 74)) with 2. change (length (ascii "LibNaCLPK:")) with 10. cbn [length]. lia.
  - rewrite <- (proj2 (is_public_key_iff seed pk L) P). apply (ring_verify_sign _ real_laws).
Qed.

(** C71. A signed message from API to API with Ed25519 itself: nothing is assumed of the cryptography. *)
Lemma p_C71_with_the_real_signatures :
  forall (seed pk ekey : list byte) (mt : byte) (l : list payload) (key : keypair ring_pkcs8) (p0 unsigned signed : packet)
         (os : list byte -> address -> outcome nat) (dst src : address)
         (cfg : net_config) (q0 : list datagram) (tr : list label) (s : net_state) (r : nat)
         (cs : list community) (c : community),
    (* the sender *)
    keypair_from_seed_unchecked ring_pkcs8 seed = Ok key -> is_public_key seed pk -> length ekey = 32 ->
    Forall (fun x => in_range (projT1 x) (projT2 x)) l ->
    readable_sequence self_delimiting raw_at_end_only (map ptype l) = true ->
    packet_new (py_ipv8_header (c_mid c) mt) = Ok p0 ->
    add_all p0 (existT tval TBinMember (BinMember pk ekey) :: l) = Ok unsigned ->
    packet_sign unsigned key = Ok signed ->
    (* the network: what [send] handed to the operating system was received, among any other datagrams *)
    (forall x, In x (fst (network_send os dst signed)) -> In (fst x, src) (received q0 tr)) ->
    length (packet_raw signed) <= nc_buffersize cfg ->
    (* the receiving process *)
    run cfg (net_init cfg q0) tr s -> between_datagrams s -> r < nc_receivers cfg ->
    is_registered c cs -> length (c_mid c) = 20 -> deprecated (N_of_byte mt) = false ->
    (forall c', In c' cs -> c_tag c' = c_tag c -> c_mid c' = c_mid c) ->
    exists d d1 d2 d3,
      In (spec_header (c_mid c) mt, d, src) (handler_calls (c_tag c) (effects_behind cs r tr)) /\
      pop_header d = (d1, Ok (spec_header (c_mid c) mt)) /\
      verify_embedded ring_pkcs8 d1 = (d2, Ok true) /\
      read_all d2 (map ptype l) = (d3, Ok (map transmitted_payload l)).
Proof.
  intros seed pk ekey mt l key p0 unsigned signed os dst src cfg q0 tr s r cs c K P.
  assert (PK : public_key key = Ok pk).
  { apply from_seed_iff in K as [L ->]. rewrite (public_key_ok _ real_laws). f_equal. now apply is_public_key_iff. }
  exact (p_C71_signed_message_reaches_the_handler ring_pkcs8 real_laws key pk ekey mt l p0 unsigned signed os dst src cfg q0 tr s r cs c PK).
Qed.

(** C92. A signed message across the network with Ed25519 itself: nothing is assumed of the cryptography. *)
Lemma p_C92_with_the_real_signatures :
  forall (seed pk ekey : list byte) (mt : byte) (l : list payload) (key : keypair ring_pkcs8) (p0 unsigned signed : packet)
         (T : topology) (tr : list event) (w : world) (i k : nat) (m : message) (cfg : config) (r : nat)
         (cs : list community) (c : community),
    (* the sender *)
    keypair_from_seed_unchecked ring_pkcs8 seed = Ok key -> is_public_key seed pk -> length ekey = 32 ->
    Forall (fun x => in_range (projT1 x) (projT2 x)) l ->
    readable_sequence self_delimiting raw_at_end_only (map ptype l) = true ->
    packet_new (py_ipv8_header (c_mid c) mt) = Ok p0 ->
    add_all p0 (existT tval TBinMember (BinMember pk ekey) :: l) = Ok unsigned ->
    packet_sign unsigned key = Ok signed ->
    (* the network *)
    wrun T world_init tr w -> In (WSend i signed m) tr -> In (WDeliver k m) tr ->
    In (WStart k cfg) tr -> ~ In (WClose k) tr -> r < added k tr ->
    length (packet_raw signed) <= cf_buffersize cfg ->
    length (calls r (trace_at k tr)) = length (delivered k tr) ->
    (* the receiving process *)
    is_registered c cs -> length (c_mid c) = 20 -> deprecated (N_of_byte mt) = false ->
    (forall c', In c' cs -> c_tag c' = c_tag c -> c_mid c' = c_mid c) ->
    exists d d1 d2 d3,
      In (spec_header (c_mid c) mt, d, m_from m) (handler_calls (c_tag c) (effects_behind cs r (trace_at k tr))) /\
      pop_header d = (d1, Ok (spec_header (c_mid c) mt)) /\
      verify_embedded ring_pkcs8 d1 = (d2, Ok true) /\
      read_all d2 (map ptype l) = (d3, Ok (map transmitted_payload l)).
Proof.
  intros seed pk ekey mt l key p0 unsigned signed T tr w i k m cfg r cs c K P.
  assert (PK : public_key key = Ok pk).
  { apply from_seed_iff in K as [L ->]. rewrite (public_key_ok _ real_laws). f_equal. now apply is_public_key_iff. }
  exact (p_C92_signed_message_crosses_the_network ring_pkcs8 real_laws key pk ekey mt l p0 unsigned signed T tr w i k m cfg r cs c PK).
Qed.

(** ** Concrete cases, for every seed *)

Lemma seed_has_a_key seed : length seed = 32 -> is_public_key seed (ed_public_key seed).
Proof. intros L. apply is_public_key_iff; [exact L|reflexivity]. Qed.

(** C112 is not void: every seed has a key, with which data of any length are signed and verified *)
Example ex_C112_every_seed :
  forall (seed data : list byte), length seed = 32 ->
  exists key out, is_public_key seed key /\ borrowed_create_signature ring_pkcs8 seed key data = PyOk out /\
                  length out = length data + 64.
Proof.
  intros seed data L. exists (ed_public_key seed), (data ++ ring_sign ring_pkcs8 seed data).
  split; [now apply seed_has_a_key|].
  destruct (p_C39_create_signature ring_pkcs8 real_laws seed (ed_public_key seed) data) as (_ & _ & H3).
  destruct (H3 (is_public_key_length _ _ (seed_has_a_key _ L)) L) as (k & K & _ & B2).
  assert (k = seed) as ->.
  { revert K. cbn [ring_pkcs8 ring_ed25519 ring_from_seed_unchecked]. rewrite L. cbn [Nat.eqb]. congruence. }
  destruct (B2 eq_refl) as [R Lg]. split; [exact R|]. rewrite app_length, Lg. reflexivity.
Qed.

Example ex_C58_real_seeds :
  forall a b : list byte, length a = 32 -> length b = 32 ->
  exists q keys, Forall2 (fun seed key => length seed = 32 /\ is_public_key seed key) [a; b] keys /\
    sign_all (C := ring_pkcs8) [a; b] (Packet [x09]) = Ok q.
Proof.
  intros a b La Lb.
  destruct (p_C28_sign_appends _ real_laws a (Packet [x09])) as (q1 & s1 & E1 & _).
  destruct (p_C28_sign_appends _ real_laws b q1) as (q2 & s2 & E2 & _).
  exists q2, [ed_public_key a; ed_public_key b]. split.
  - repeat constructor; auto using seed_has_a_key.
  - cbn [sign_all]. rewrite E1. cbn [bind]. rewrite E2. reflexivity.
Qed.

(** the hypotheses of C71 with the real signatures are met, for every seed *)
Example ex_C71_real_hypotheses :
  forall seed, length seed = 32 ->
  exists (key : keypair ring_pkcs8) pk p0 unsigned signed tr s,
    keypair_from_seed_unchecked ring_pkcs8 seed = Ok key /\ is_public_key seed pk /\
    packet_new (py_ipv8_header e2e_mid x01) = Ok p0 /\
    add_all p0 (existT tval TBinMember (BinMember pk (repeat x06 32)) :: example_payloads) = Ok unsigned /\
    packet_sign unsigned key = Ok signed /\ length (packet_raw signed) <= nc_buffersize e2e_cfg /\
    run e2e_cfg (net_init e2e_cfg []) tr s /\ between_datagrams s /\ received [] tr = [(packet_raw signed, e2e_src)] /\
    is_registered (e2e_community 1 e2e_mid) e2e_registry.
Proof.
  intros seed L. destruct (ex_signed_message seed L) as (key & p0 & un & sg & H1 & H2 & H3 & H4 & H5).
  destruct (deliverable e2e_cfg [(packet_raw sg, e2e_src)]) as (tr & s & R & I & A & _ & _ & D).
  exists key, (ed_public_key seed), p0, un, sg, tr, s.
  split; [exact H1|]. split; [now apply seed_has_a_key|]. split; [exact H2|]. split; [exact H3|]. split; [exact H4|].
  split; [rewrite H5; cbn; lia|]. split; [exact R|].
  assert (B : between_datagrams s). { unfold between_datagrams. destruct I as [-> _]. exact Logic.I. }
  split; [exact B|]. split.
  - destruct (p_C48_exactly_once_in_order _ _ _ _ 0 R) as [E _].
    destruct (E ltac:(cbn; lia)) as (m & E1 & _ & E2). rewrite (E2 B), app_nil_r, (D 0) in E1 by (cbn; lia).
    unfold received in *. rewrite A in *. cbn [app] in *. destruct (recvs tr); [discriminate|]. cbn. now rewrite firstn_nil.
  - exists [], [e2e_community 2 (repeat x2b 20)]. split; [reflexivity|]. repeat constructor. discriminate.
Qed.

(** the hypotheses of C92 with the real signatures are met, for every seed *)
Example ex_C92_real_hypotheses :
  forall seed, length seed = 32 ->
  exists (key : keypair ring_pkcs8) pk p0 unsigned signed m tr w,
    keypair_from_seed_unchecked ring_pkcs8 seed = Ok key /\ is_public_key seed pk /\
    packet_new (py_ipv8_header e2e_mid x01) = Ok p0 /\
    add_all p0 (existT tval TBinMember (BinMember pk (repeat x06 32)) :: example_payloads) = Ok unsigned /\
    packet_sign unsigned key = Ok signed /\
    wrun two_hosts world_init tr w /\ In (WSend 0 signed m) tr /\ In (WDeliver 1 m) tr /\
    In (WStart 1 overlay_config) tr /\ ~ In (WClose 1) tr /\ 0 < added 1 tr /\
    length (packet_raw signed) <= cf_buffersize overlay_config /\
    length (calls 0 (trace_at 1 tr)) = length (delivered 1 tr) /\
    is_registered (e2e_community 1 e2e_mid) e2e_registry.
Proof.
  intros seed L. destruct (ex_signed_message seed L) as (key & p0 & un & sg & H1 & H2 & H3 & H4 & H5).
  destruct overlay_setup_run as (w0 & c & s & R & Hi & Hk & Id & Q & ->).
  set (m := ex_message sg).
  destruct (p_C90_packets_can_arrive two_hosts _ w0 0 1 1 sg m (v4 0 0 0 0 8000) (v4 0 0 0 0 9000) [] (listen_config overlay_config 1) s R Hi eq_refl eq_refl) as (steps & w & Rw & _ & Hc);
    try exact Hk; try exact Id; try exact Q; try reflexivity.
  { right. repeat constructor. }
  { left. split; reflexivity. }
  { right. repeat constructor. }
  { change (length (packet_raw sg) <= 256). rewrite H5. lia. }
  exists key, (ed_public_key seed), p0, un, sg, m, (overlay_setup ++ WSend 0 sg m :: WDeliver 1 m :: map (WListener 1) steps), w.
  assert (Tr : trace_at 1 (overlay_setup ++ WSend 0 sg m :: WDeliver 1 m :: map (WListener 1) steps)
               = LArrive (m_data m, m_from m) :: steps).
  { rewrite trace_at_app. cbn [overlay_setup trace_at app Nat.eqb]. now rewrite trace_at_listener. }
  rewrite Tr. cbn [calls]. rewrite (Hc 0) by (cbn; lia).
  split; [exact H1|]. split; [now apply seed_has_a_key|]. split; [exact H2|]. split; [exact H3|]. split; [exact H4|].
  split; [eapply wrun_app; eassumption|].
  split; [apply in_or_app; right; left; reflexivity|]. split; [apply in_or_app; right; right; left; reflexivity|].
  split; [cbn; tauto|].
  split. { intros I. apply in_app_or in I as [I|I]; [cbn in I; intuition discriminate|].
    destruct I as [I|[I|I]]; try discriminate. apply in_map_iff in I as (? & I & _). discriminate. }
  split; [rewrite added_app; cbn; lia|]. split; [rewrite H5; cbn; lia|].
  split; [rewrite delivered_app; cbn [overlay_setup delivered app Nat.eqb length]; now rewrite delivered_listener|].
  exists [], [e2e_community 2 (repeat x2b 20)]; split; [reflexivity|repeat constructor; discriminate].
Qed.
