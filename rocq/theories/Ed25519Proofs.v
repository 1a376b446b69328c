(** * Ed25519Proofs: the scheme of Ed25519.v meets what the rest of the model assumes of [ring] *)
From Coq Require Import Strings.String.
From Coq Require Import Znumtheory.
From Verif Require Import Base Serde Codec Universe Spec SerdeFacts CodecFacts UniverseFacts Packet Client PacketFacts CodecProofs CryptoProofs
  EdPrime EdField EdCurve EdSpec Sha512 Sha512Spec Sha512Facts Ed25519 Ed25519Facts.
Open Scope Z_scope.

(** ** SHA-512 gives 64 bytes *)
Lemma sha512_length m : length (sha512 m) = 64%nat.
Proof. unfold sha512. rewrite !app_length, !be_length. reflexivity. Qed.

(** ** Scalars *)
Lemma ed_L_pos : 0 < ed_L. Proof. reflexivity. Qed.
Lemma hash_scalar_range m : 0 <= hash_scalar m < ed_L.
Proof. apply Z.mod_pos_bound, ed_L_pos. Qed.
Lemma secret_scalar_pos seed : 0 <= secret_scalar seed.
Proof.
  unfold secret_scalar. pose proof (Z.mod_pos_bound (le_int (firstn 32 (sha512 seed))) (2 ^ 254) eq_refl).
  pose proof (Z.div_pos (le_int (firstn 32 (sha512 seed)) mod 2 ^ 254) 8). lia.
Qed.
Lemma ed_L_bytes z : 0 <= z < ed_L -> le_int (le_bytes 32 z) = z.
Proof. intros H. apply le_int_bytes. split; [lia|]. eapply Z.lt_trans; [apply H|reflexivity]. Qed.

Lemma times_add m n a : 0 <= m -> 0 <= n -> times (m + n) a = padd (times m a) (times n a).
Proof. intros. unfold times. rewrite Z2Nat.inj_add by assumption. apply pmul_add. Qed.
Lemma times_mul m n a : 0 <= m -> 0 <= n -> times (m * n) a = times m (times n a).
Proof. intros. unfold times. rewrite Z2Nat.inj_mul by assumption. apply pmul_mul. Qed.
Lemma times_zero_r n : times n pzero = pzero.
Proof. apply pmul_zero. Qed.
Lemma times_order : times ed_L base = pzero.
Proof. apply base_order. Qed.
Lemma times_opp n a : times n (popp a) = popp (times n a).
Proof. apply pmul_opp. Qed.
Lemma padd_0_r a : padd a pzero = a.
Proof. rewrite padd_comm. apply padd_0_l. Qed.
Lemma padd_opp_r a : padd a (popp a) = pzero.
Proof. rewrite padd_comm. apply padd_opp_l. Qed.
Lemma times_mod n : 0 <= n -> times (n mod ed_L) base = times n base.
Proof.
  intros H. rewrite (Z_div_mod_eq_full n ed_L) at 2. pose proof (Z.mod_pos_bound n ed_L ed_L_pos).
  pose proof (Z.div_pos n ed_L H ed_L_pos). pose proof ed_L_pos.
  rewrite times_add by nia. rewrite Z.mul_comm, times_mul, times_order, times_zero_r, padd_0_l by lia. reflexivity.
Qed.

(** ** Signing *)
Lemma compress_length P : length (compress P) = 32%nat.
Proof. apply le_bytes_length. Qed.
Lemma mul_base n : represents (ext_mul n base_point) (times n base).
Proof. apply ext_mul_ok, base_point_ok. Qed.

Lemma bytes_eqb_true a b : bytes_eqb a b = true <-> a = b.
Proof.
  revert b. induction a as [|x a IH]; intros [|y b]; cbn; try (split; congruence).
  rewrite andb_true_iff, IH. split.
  - intros [H ->]. now apply Byte.byte_dec_bl in H as ->.
  - intros [= -> ->]. split; [now apply Byte.byte_dec_lb|reflexivity].
Qed.

(** [ed_verify] in the group *)
Lemma verify_group key m sig : ed_verify key m sig = true <->
  length sig = 64%nat /\ le_int (skipn 32 sig) < ed_L /\
  exists A, decodes key A /\
    encode (padd (times (le_int (skipn 32 sig)) base)
              (popp (times (hash_scalar (firstn 32 sig ++ key ++ m)) A))) = firstn 32 sig.
Proof.
  unfold ed_verify. split.
  - destruct (decompress key) as [P|] eqn:D; [|discriminate].
    destruct (Nat.eqb_spec (length sig) 64) as [L|_]; [|discriminate]. cbv zeta.
    destruct (Z.ltb_spec (le_int (skipn 32 sig)) ed_L) as [Lt|_]; [|discriminate].
    intros E. apply bytes_eqb_true in E. destruct (decompress_sound _ _ D) as (A & RA & DA).
    repeat split; try assumption. exists A. split; [exact DA|]. etransitivity; [|symmetry; exact E]. symmetry.
    rewrite <- times_opp. apply compress_ok, ext_add_ok; [apply mul_base|]. now apply ext_mul_ok, ext_neg_ok.
  - intros (L & Lt & A & DA & E). destruct (decompress_complete _ _ DA) as (P & -> & RA).
    rewrite L. cbn [Nat.eqb]. cbv zeta. apply Z.ltb_lt in Lt. rewrite Lt. apply bytes_eqb_true. etransitivity; [symmetry; exact E|]. symmetry.
    rewrite <- times_opp. apply compress_ok, ext_add_ok; [apply mul_base|]. now apply ext_mul_ok, ext_neg_ok.
Qed.

(** a signature with any nonce [r] *)
Definition sign_with (r : Z) (seed m : list byte) : list byte :=
  let R := compress (ext_mul r base_point) in
  R ++ le_bytes 32 ((r + hash_scalar (R ++ ed_public_key seed ++ m) * secret_scalar seed) mod ed_L).
Lemma ed_sign_with seed m : ed_sign seed m = sign_with (hash_scalar (secret_prefix seed ++ m)) seed m.
Proof. reflexivity. Qed.

Lemma verify_sign_with r seed m : 0 <= r -> ed_verify (ed_public_key seed) m (sign_with r seed m) = true.
Proof.
  intros Pr. unfold sign_with. cbv zeta. set (a := secret_scalar seed).
  set (R := compress (ext_mul r base_point)). set (k := hash_scalar (R ++ ed_public_key seed ++ m)).
  assert (LR : length R = 32%nat) by apply compress_length.
  assert (F : forall t, firstn 32 (R ++ t) = R) by (intros t; rewrite firstn_app, LR, Nat.sub_diag, firstn_O, app_nil_r, <- LR; apply firstn_all).
  assert (K : forall t, skipn 32 (R ++ t) = t) by (intros t; rewrite skipn_app, LR, Nat.sub_diag, <- LR, skipn_all; reflexivity).
  pose proof (secret_scalar_pos seed) as Pa. fold a in Pa.
  pose proof (hash_scalar_range (R ++ ed_public_key seed ++ m)) as Pk. fold k in Pk.
  assert (PS : 0 <= (r + k * a) mod ed_L < ed_L) by (apply Z.mod_pos_bound, ed_L_pos).
  apply verify_group. rewrite F, K, ed_L_bytes by exact PS. split; [|split].
  - rewrite app_length, LR, le_bytes_length. reflexivity.
  - apply PS.
  - fold k. exists (times a base). split.
    + unfold ed_public_key. fold a. rewrite (compress_ok _ _ (mul_base a)). apply encode_decodes.
    + rewrite times_mod by nia. rewrite times_add by nia. rewrite times_mul by lia.
      rewrite padd_assoc, padd_opp_r, padd_0_r. symmetry. apply compress_ok, mul_base.
Qed.
Lemma verify_sign seed m : ed_verify (ed_public_key seed) m (ed_sign seed m) = true.
Proof. rewrite ed_sign_with. apply verify_sign_with. apply hash_scalar_range. Qed.

(** C100. The Ed25519 of RFC 8032, as an executable program, has every property that the theorems about
    signatures assume of [ring]: lengths, every signature verifies under the signer's key, every seed gives
    a key pair. The way a PKCS#8 document is decoded is left open. *)
Lemma p_C100_ed25519_meets_the_laws :
  forall from_pkcs8 : list byte -> option (list byte), ed25519_laws (ring_ed25519 from_pkcs8).
Proof.
  intros f. split.
  - intros k. apply compress_length.
  - intros k m. cbn [ring_ed25519 ring_sign]. unfold ed_sign. cbv zeta. rewrite app_length, compress_length, le_bytes_length. reflexivity.
  - intros k m. apply verify_sign.
  - intros s L. exists s. cbn [ring_ed25519 ring_from_seed_unchecked]. now rewrite L.
  - intros s pk. reflexivity.
Qed.

(** ** The specification *)
Lemma order_L : order = ed_L.
Proof. unfold order, ed_L. reflexivity. Qed.
Lemma hash_scalar_eq m : le_int (sha512 m) mod ed_L = hash_scalar m.
Proof. unfold hash_scalar. reflexivity. Qed.
Lemma le_number_int b : le_number b = le_int b.
Proof.
  unfold le_int. induction b as [|x b IH]; [reflexivity|]. cbn [le_number rev]. rewrite be_value_snoc, IH. lia.
Qed.

Lemma encodes_encode b a : encodes b a <-> b = encode a.
Proof.
  assert (X : fval (py a) + (if Z.odd (fval (px a)) then 2 ^ 255 else 0) = fval (py a) + 2 ^ 255 * (fval (px a) mod 2)).
  { rewrite Zmod_odd. destruct (Z.odd (fval (px a))); lia. }
  unfold encodes. rewrite le_number_int, X. split.
  - intros [L E]. unfold encode. rewrite <- E, <- L. symmetry. apply le_bytes_int.
  - intros ->. split; [apply encode_length|]. unfold encode. apply le_int_bytes, encoded_range.
Qed.

Lemma top_bit z : 0 <= z < 256 ^ Z.of_nat 32 -> z / 2 ^ 255 = if 2 ^ 255 <=? z then 1 else 0.
Proof.
  replace (256 ^ Z.of_nat 32) with (2 ^ 255 * 2) by reflexivity. intros H. destruct (Z.leb_spec (2 ^ 255) z).
  - symmetry. apply (Z.div_unique _ _ _ (z - 2 ^ 255)); lia.
  - apply Z.div_small. lia.
Qed.

Lemma reads_decodes b a : reads_as b a <-> decodes b a.
Proof.
  unfold reads_as, decodes. rewrite le_number_int. split; intros (L & Y & S); (split; [exact L|split; [exact Y|]]);
    pose proof (le_int_range b) as R; rewrite L in R; (destruct S as [S|S]; [left|now right]); revert S;
    rewrite (top_bit _ R), Zmod_odd; destruct (Z.odd (fval (px a))), (2 ^ 255 <=? le_int b); congruence.
Qed.

Lemma app_inj_head_length {A} (a b c d : list A) : length a = length c -> a ++ b = c ++ d -> a = c /\ b = d.
Proof.
  revert c. induction a as [|x a IH]; intros [|y c] L E; cbn in *; try discriminate; [now split|].
  injection E as -> E. destruct (IH c ltac:(lia) E) as [-> ->]. now split.
Qed.
Lemma app_inj_tail_length {A} (a b c d : list A) : length b = length d -> a ++ b = c ++ d -> a = c /\ b = d.
Proof.
  intros L E. apply app_inj_head_length; [|exact E]. apply (f_equal (@length A)) in E. rewrite !app_length in E. lia.
Qed.

Transparent ed_p.
Lemma base_x_val : fval (px base) = base_x.
Proof. vm_compute. reflexivity. Qed.
Lemma five_inverse : fmul (fp_of 46316835694926478169428394003475163141307993866256225615783033603165251855960) (fp_of 5) = fp_of 4.
Proof. rewrite <- fp_of_mul. apply fp_of_eq. vm_compute. reflexivity. Qed.
Lemma quarter : fmul (fp_of 43422033463993573283839119378257965444976244249615211514796594002967423614962) (fp_of 4) = f1.
Proof. unfold f1. rewrite <- fp_of_mul. apply fp_of_eq. vm_compute. reflexivity. Qed.
Opaque ed_p.

Lemma base_is_base : is_base base.
Proof.
  split; [|rewrite base_x_val; reflexivity]. cbn [base py].
  rewrite <- fp_of_mul. apply fp_of_eq. rewrite base_5y. symmetry. apply Z.mod_small. pose proof ed_p_big. lia.
Qed.

Lemma is_base_unique a : is_base a -> a = base.
Proof.
  intros [Y X]. destruct base_is_base as [Y0 X0].
  assert (Five : fp_of 5 <> f0).
  { intros H. apply (f_equal fval) in H. rewrite fval_zero, fval_of, Z.mod_small in H; [discriminate|]. pose proof ed_p_big. lia. }
  assert (EY : py a = py base).
  { assert (P : fmul (fp_of 5) (fsub (py a) (py base)) = f0).
    { replace (fmul (fp_of 5) (fsub (py a) (py base))) with (fsub (fmul (fp_of 5) (py a)) (fmul (fp_of 5) (py base))) by ring.
      rewrite Y, Y0. ring. }
    destruct (fmul_zero _ _ P) as [P1|P1]; [contradiction|]. now apply fsub_zero. }
  apply point_eq; [|exact EY].
  pose proof (proj1 (curve_uv _ _) (p_on_curve a)) as Ca. pose proof (proj1 (curve_uv _ _) (p_on_curve base)) as Cb.
  rewrite EY in Ca. rewrite <- Cb in Ca.
  assert (SQ : fmul (px a) (px a) = fmul (px base) (px base)).
  { pose proof (decode_v_nz (py base)) as Nv.
    rewrite <- (fp_mul_div (fmul (px a) (px a)) _ Nv), <- (fp_mul_div (fmul (px base) (px base)) _ Nv).
    f_equal. transitivity (fmul (decode_v (py base)) (fmul (px a) (px a))); [ring|]. rewrite Ca. ring. }
  destruct (square_eq _ _ SQ) as [E|E]; [exact E|exfalso].
  assert (Nx : px base <> f0).
  { intros H. apply (f_equal fval) in H. rewrite base_x_val, fval_zero in H. discriminate. }
  pose proof (fopp_parity _ Nx) as Pz. rewrite <- E, <- !Z.negb_even, X, X0 in Pz. discriminate.
Qed.

(** C101. Verification accepts exactly the valid signatures of RFC 8032, 5.1.7: the public key reads as a
    point A of the curve, the signature is an encoded point R and a number S below the group order, and
    S B - k A = R in the group, k being the SHA-512 of R, the key and the message. *)
Lemma p_C101_verify_is_the_group_equation :
  forall (from_pkcs8 : list byte -> option (list byte)) (key msg sig : list byte),
    (len msg < 2 ^ 64)%N ->
    (verify_raw (ring_ed25519 from_pkcs8) key msg sig = true <-> valid_signature key msg sig).
Proof.
  intros f key m sig Lm. change (verify_raw (ring_ed25519 f) key m sig) with (ed_verify key m sig).
  assert (SH : forall r, length r = 32%nat -> length key = 32%nat -> is_sha512 (r ++ key ++ m) (sha512 (r ++ key ++ m))).
  { intros r Lr Lk. apply sha512_is_sha512. unfold len in *. rewrite !app_length, Lr, Lk, !Nat2N.inj_add.
    change (N.of_nat 32) with 32%N. clear - Lm. generalize dependent (N.of_nat (length m)). intros n H.
    apply N.lt_trans with (64 + 2 ^ 64)%N; [|reflexivity]. lia. }
  rewrite verify_group. unfold valid_signature. split.
  - intros (L & Lt & A & DA & E).
    exists base, A, (padd (times (le_int (skipn 32 sig)) base) (popp (times (hash_scalar (firstn 32 sig ++ key ++ m)) A))),
      (firstn 32 sig), (skipn 32 sig), (sha512 (firstn 32 sig ++ key ++ m)).
    split; [apply base_is_base|]. split; [now apply reads_decodes|]. split; [symmetry; apply firstn_skipn|].
    split; [apply encodes_encode; now symmetry|]. rewrite !le_number_int. split; [rewrite skipn_length, L; reflexivity|].
    rewrite order_L. split; [exact Lt|]. split; [apply SH; [rewrite firstn_length, L; reflexivity|exact (proj1 DA)]|]. rewrite hash_scalar_eq. reflexivity.
  - intros (B & A & R & r & s & h & HB & HA & -> & HR & Ls & Lt & HH & E).
    apply is_base_unique in HB. subst B. apply reads_decodes in HA. pose proof (proj1 HR) as Lr. apply encodes_encode in HR.
    assert (F : firstn 32 (r ++ s) = r) by (rewrite firstn_app, Lr, Nat.sub_diag, firstn_O, app_nil_r, <- Lr; apply firstn_all).
    assert (K : skipn 32 (r ++ s) = s) by (rewrite skipn_app, Lr, Nat.sub_diag, <- Lr, skipn_all; reflexivity).
    rewrite (is_sha512_unique _ _ _ HH (SH r Lr (proj1 HA))) in E. clear h HH.
    rewrite F, K. rewrite !le_number_int in *. rewrite order_L in *. rewrite hash_scalar_eq in E. split; [rewrite app_length, Lr, Ls; reflexivity|]. split; [exact Lt|].
    exists A. split; [exact HA|]. rewrite HR at 2. f_equal. exact E.
Qed.

(** ** The order of the base point *)
Lemma times_base_zero n : 0 < n < ed_L -> times n base <> pzero.
Proof.
  intros H Z. assert (RP : rel_prime n ed_L).
  { apply rel_prime_sym, prime_rel_prime; [exact prime_ed_order|]. intros D. apply Z.divide_pos_le in D; lia. }
  destruct (rel_prime_bezout _ _ RP) as [u v E].
  set (w := u mod ed_L). pose proof (Z.mod_pos_bound u ed_L ed_L_pos) as W. fold w in W.
  assert (M : exists q, w * n = 1 + q * ed_L).
  { exists (- v - (u / ed_L) * n). unfold w. rewrite Z.mod_eq by (pose proof ed_L_pos; lia).
    transitivity (u * n + v * ed_L - (v + (u / ed_L) * n) * ed_L); [ring|]. rewrite E. ring. }
  destruct M as [q Q]. assert (0 <= q) by (pose proof ed_L_pos; nia).
  apply base_not_zero. assert (T : times (w * n) base = pzero) by (rewrite times_mul, Z, times_zero_r by lia; reflexivity).
  rewrite Q, times_add, times_mul, times_order, times_zero_r, padd_0_r in T by (pose proof ed_L_pos; nia).
  rewrite <- T. unfold times. change (Z.to_nat 1) with 1%nat. cbn [pmul]. now rewrite padd_0_r.
Qed.

Lemma padd_cancel a b c : padd a c = padd b c -> a = b.
Proof.
  intros H. apply (f_equal (fun x => padd x (popp c))) in H. now rewrite !padd_assoc, padd_opp_r, !padd_0_r in H.
Qed.

Lemma times_base_inj m n : 0 <= m < ed_L -> 0 <= n < ed_L -> times m base = times n base -> m = n.
Proof.
  assert (W : forall m n, 0 <= m -> m < n < ed_L -> times m base = times n base -> False).
  { intros x y Hx Hy E. apply (times_base_zero (y - x)); [lia|].
    replace y with (y - x + x) in E by lia. rewrite times_add in E by lia.
    apply (padd_cancel _ _ (times x base)). now rewrite padd_0_l. }
  intros Hm Hn E. destruct (Z.lt_trichotomy m n) as [H|[H|H]]; [exfalso|exact H|exfalso].
  - apply (W m n); auto; lia.
  - apply (W n m); auto; lia.
Qed.

(** C102. Signatures are not malleable in their second half: two packets that differ at most in their last
    32 bytes are not both accepted under the same key, whatever the key. *)
Lemma p_C102_last_32_bytes_are_determined :
  forall (from_pkcs8 : list byte -> option (list byte)) (key body s1 s2 : list byte) (i j : nat),
    length s1 = 32%nat -> length s2 = 32%nat ->
    snd (verify_with (ring_ed25519 from_pkcs8) key {| pntr := Packet (body ++ s1); index := i |}) = Ok true ->
    snd (verify_with (ring_ed25519 from_pkcs8) key {| pntr := Packet (body ++ s2); index := j |}) = Ok true ->
    s1 = s2.
Proof.
  intros f key body s1 s2 i j L1 L2 V1 V2.
  apply p_C30_accepts_iff in V1 as (m1 & g1 & E1 & G1 & V1). apply p_C30_accepts_iff in V2 as (m2 & g2 & E2 & G2 & V2).
  assert (LB : length m1 = length m2).
  { apply (f_equal (@length byte)) in E1, E2. rewrite !app_length in *. lia. }
  assert (S1 : g1 = firstn 32 g1 ++ s1 /\ body = m1 ++ firstn 32 g1).
  { rewrite <- (firstn_skipn 32 g1), app_assoc in E1. apply app_inj_tail_length in E1 as [-> ->]; [|rewrite skipn_length; lia].
    split; [symmetry; apply firstn_skipn|reflexivity]. }
  assert (S2 : g2 = firstn 32 g2 ++ s2 /\ body = m2 ++ firstn 32 g2).
  { rewrite <- (firstn_skipn 32 g2), app_assoc in E2. apply app_inj_tail_length in E2 as [-> ->]; [|rewrite skipn_length; lia].
    split; [symmetry; apply firstn_skipn|reflexivity]. }
  destruct S1 as [S1 B1], S2 as [S2 B2]. rewrite B1 in B2. apply app_inj_head_length in B2 as [-> B2]; [|exact LB].
  change (ed_verify key m2 g1 = true) in V1. change (ed_verify key m2 g2 = true) in V2.
  apply verify_group in V1 as (_ & Lt1 & A & DA & X1). apply verify_group in V2 as (_ & Lt2 & A' & DA' & X2).
  rewrite (decodes_fun _ _ _ DA' DA) in X2. clear A' DA'. rewrite B2 in X1. pose proof (eq_trans X1 (eq_sym X2)) as X3.
  apply encode_inj, padd_cancel in X3.
  assert (K1 : skipn 32 g1 = s1) by (rewrite S1, skipn_app, firstn_length, G1, skipn_all2 by (rewrite firstn_length; lia); reflexivity).
  assert (K2 : skipn 32 g2 = s2) by (rewrite S2, skipn_app, firstn_length, G2, skipn_all2 by (rewrite firstn_length; lia); reflexivity).
  rewrite K1 in Lt1, X3. rewrite K2 in Lt2, X3.
  apply times_base_inj in X3; [|pose proof (le_int_range s1); lia|pose proof (le_int_range s2); lia].
  rewrite <- (le_bytes_int s1), <- (le_bytes_int s2), L1, L2, X3. reflexivity.
Qed.

(** C100. So the end-to-end theorem of signed messages (C31) holds of the real signature scheme with no
    assumption left: a packet with a header, an authentication payload carrying the signer's key and any
    payloads, signed with any key pair, is verified and read back by the receiver. *)
Lemma p_C100_signed_message_end_to_end :
  forall (from_pkcs8 : list byte -> option (list byte)) (seed ekey mid : list byte) (mt : byte) (l : list payload)
         (k : keypair (ring_ed25519 from_pkcs8)) (p0 unsigned signed : packet),
    keypair_from_seed_unchecked (ring_ed25519 from_pkcs8) seed = Ok k ->
    length ekey = 32%nat -> length mid = 20%nat ->
    Forall (fun x => in_range (projT1 x) (projT2 x)) l ->
    readable_sequence self_delimiting raw_at_end_only (map ptype l) = true ->
    packet_new (py_ipv8_header mid mt) = Ok p0 ->
    add_all p0 (existT tval TBinMember (BinMember (ed_public_key seed) ekey) :: l) = Ok unsigned ->
    packet_sign unsigned k = Ok signed ->
    exists d1 d2 d3,
      pop_header (start_deserialize signed) = (d1, Ok (spec_header mid mt)) /\
      verify_embedded (ring_ed25519 from_pkcs8) d1 = (d2, Ok true) /\
      read_all d2 (map ptype l) = (d3, Ok (map transmitted_payload l)) /\
      pntr d2 = unsigned /\ d3 = {| pntr := unsigned; index := length (packet_raw unsigned) |}.
Proof.
  intros f seed ekey mid mt l k p0 u s K Le Lm Fr Rs H0 H1 H2.
  assert (E : k = seed).
  { unfold keypair_from_seed_unchecked in K. cbn [ring_ed25519 ring_from_seed_unchecked] in K.
    destruct (length seed =? 32)%nat; cbn [ok_or] in K; congruence. }
  subst k. apply (p_C31_signed_message_end_to_end _ (p_C100_ed25519_meets_the_laws f) seed (ed_public_key seed) ekey mid mt l p0 u s); try assumption.
  exact (public_key_ok _ (p_C100_ed25519_meets_the_laws f) seed).
Qed.

Example ex_C100_hypotheses :
  exists k p0 unsigned signed,
    keypair_from_seed_unchecked (ring_ed25519 (fun _ => None)) (repeat x05 32) = Ok k /\
    packet_new (py_ipv8_header (repeat x2a 20) x01) = Ok p0 /\
    add_all p0 (existT tval TBinMember (BinMember (ed_public_key (repeat x05 32)) (repeat x06 32)) :: example_payloads) = Ok unsigned /\
    packet_sign unsigned k = Ok signed /\ length (packet_raw signed) = 195%nat.
Proof.
  pose proof (p_C100_ed25519_meets_the_laws (fun _ => None)) as LW.
  assert (H : forall pk, length pk = 32%nat -> exists u,
    add_all (Packet (header_layout (repeat x2a 20) x01)) (existT tval TBinMember (BinMember pk (repeat x06 32)) :: example_payloads) = Ok u /\
    length (packet_raw u) = 131%nat).
  { intros pk L. do 32 (destruct pk as [|? pk]; [discriminate L|]). destruct pk; [|discriminate L].
    eexists. split; [vm_compute; reflexivity|]. reflexivity. }
  destruct (H (ed_public_key (repeat x05 32)) (compress_length _)) as (u & Hu & Lu). clear H.
  destruct (p_C28_sign_appends _ LW (repeat x05 32) u) as (q & sig & E & R & Ls & _).
  exists (repeat x05 32), (Packet (header_layout (repeat x2a 20) x01)), u, q.
  split; [reflexivity|]. split; [vm_compute; reflexivity|]. split; [exact Hu|]. split; [exact E|].
  rewrite R, app_length, Ls, Lu. reflexivity.
Qed.

(** C101 is about signatures that exist: those that [sign] makes. *)
Example ex_C101_valid_signatures :
  forall seed msg, (len msg < 2 ^ 64)%N -> valid_signature (ed_public_key seed) msg (ed_sign seed msg).
Proof. intros seed msg L. apply (p_C101_verify_is_the_group_equation (fun _ => None)); [exact L|apply verify_sign]. Qed.

(** C102. In particular a signed packet with anything else as its last 32 bytes is rejected. *)
Lemma p_C102_signed_packet_not_malleable :
  forall (from_pkcs8 : list byte -> option (list byte)) (k : keypair (ring_ed25519 from_pkcs8)) (pk : list byte)
         (p q : packet) (tail : list byte) (i : nat),
    public_key k = Ok pk -> packet_sign p k = Ok q -> length tail = 32%nat ->
    tail <> skipn (length (packet_raw p) + 32) (packet_raw q) ->
    snd (verify_with (ring_ed25519 from_pkcs8) pk
           {| pntr := Packet (firstn (length (packet_raw p) + 32) (packet_raw q) ++ tail); index := i |}) = Ok false.
Proof.
  intros f k pk p q t i K S L D.
  pose proof (p_C100_ed25519_meets_the_laws f) as LW.
  destruct (p_C28_sign_appends _ LW k p) as (q' & sig & S' & R & Ls & _). rewrite S in S'.
  assert (q' = q) by congruence. subst q'. clear S'.
  pose proof (p_C29_sign_then_verify _ LW k pk p q i K S) as V.
  set (n := (length (packet_raw p) + 32)%nat) in *.
  assert (LQ : length (packet_raw q) = (n + 32)%nat) by (rewrite R, app_length, Ls; unfold n; lia).
  destruct (proj2 (p_C30_accepts_iff (ring_ed25519 f) pk (firstn n (packet_raw q) ++ t) i)) as [A|A]; [| |exact A].
  - rewrite app_length, firstn_length, LQ, L. unfold n. lia.
  - exfalso. apply D. apply (p_C102_last_32_bytes_are_determined f pk (firstn n (packet_raw q)) _ _ i i L); [|exact A|].
    + rewrite skipn_length, LQ. lia.
    + rewrite firstn_skipn. destruct q as [raw]. exact (f_equal snd V).
Qed.

Lemma neutral_key_decodes key : decodes key pzero <-> In key neutral_keys.
Proof.
  split.
  - intros (L & Y & _). cbn [pzero py] in Y. pose proof (le_int_range key) as R. rewrite L in R.
    change (256 ^ Z.of_nat 32) with (2 * 2 ^ 255) in R.
    pose proof (Z.div_mod (le_int key) (2 ^ 255) ltac:(lia)) as D. pose proof (Z.mod_pos_bound (le_int key) (2 ^ 255) eq_refl) as M.
    set (q := le_int key / 2 ^ 255) in *. set (m := le_int key mod 2 ^ 255) in *.
    assert (Q : q = 0 \/ q = 1) by lia.
    change f1 with (fp_of 1) in Y. apply fp_of_eq in Y. change (1 mod ed_p) with 1 in Y.
    pose proof (Z.div_mod m ed_p ltac:(discriminate)) as E. rewrite <- Y in E.
    assert (P : ed_p = 2 ^ 255 - 19) by reflexivity.
    assert (m = 1 \/ m = ed_p + 1) as Em by (rewrite P in *; nia). clear E.
    assert (X : forall k, In k neutral_keys -> length k = 32%nat).
    { intros k [<-|[<-|[<-|[<-|[]]]]]; reflexivity. }
    assert (Z : exists k, In k neutral_keys /\ le_int k = le_int key).
    { destruct Q as [Q|Q], Em as [Em|Em]; rewrite D, Q, Em.
      - exists (x01 :: repeat x00 31). split; [cbn [neutral_keys In]; tauto|vm_compute; reflexivity].
      - exists (xee :: repeat xff 30 ++ [x7f]). split; [cbn [neutral_keys In]; tauto|vm_compute; reflexivity].
      - exists (x01 :: repeat x00 30 ++ [x80]). split; [cbn [neutral_keys In]; tauto|vm_compute; reflexivity].
      - exists (xee :: repeat xff 31). split; [cbn [neutral_keys In]; tauto|vm_compute; reflexivity]. }
    destruct Z as (k & I & E). replace key with k; [exact I|].
    rewrite <- (le_bytes_int k), <- (le_bytes_int key), E, L, (X k I). reflexivity.
  - intros I. split; [now repeat (destruct I as [<-|I]; [reflexivity|])|]. split; [|now right].
    cbn [pzero py]. change f1 with (fp_of 1). apply fp_of_eq.
    now repeat (destruct I as [<-|I]; [vm_compute; reflexivity|]).
Qed.

Lemma neutral_verifies key msg : In key neutral_keys -> ed_verify key msg (neutral ++ repeat x00 32) = true.
Proof.
  intros I. apply verify_group.
  change (skipn 32 (neutral ++ repeat x00 32)) with (repeat x00 32).
  change (firstn 32 (neutral ++ repeat x00 32)) with neutral.
  replace (le_int (repeat x00 32)) with 0 by (vm_compute; reflexivity).
  split; [reflexivity|]. split; [apply ed_L_pos|].
  assert (EN : encode pzero = neutral).
  { unfold encode. cbn [pzero px py]. rewrite fval_one, fval_zero. vm_compute. reflexivity. }
  exists pzero. split; [now apply neutral_key_decodes|].
  rewrite times_zero_r. change (times 0 base) with pzero. now rewrite padd_opp_r.
Qed.

(** C103. A verdict [true] alone does not mean that anybody signed: the 32 bytes 01 00 ... 00 are accepted
    as a public key (the neutral element of the group), and so are three other ways to write it; under each of them one fixed
    signature, 01 00 ... 00 followed by 32 zero bytes, is valid for every message. *)
Lemma p_C103_neutral_key_accepts_everything :
  forall (from_pkcs8 : list byte -> option (list byte)) (key msg : list byte) (i : nat),
    In key neutral_keys ->
    verify_with (ring_ed25519 from_pkcs8) key
      {| pntr := Packet (msg ++ neutral ++ repeat x00 32); index := i |}
    = ({| pntr := Packet msg; index := i |}, Ok true).
Proof.
  intros f key msg i I.
  assert (Ln : length neutral = 32%nat) by reflexivity.
  assert (Le : length (msg ++ neutral ++ repeat x00 32) = (length msg + 64)%nat).
  { rewrite !app_length, Ln, repeat_length. lia. }
  rewrite verify_with_eq by (rewrite Le; lia). rewrite Le. replace (length msg + 64 - 64)%nat with (length msg) by lia.
  rewrite firstn_app, Nat.sub_diag, firstn_all, firstn_O, app_nil_r.
  rewrite skipn_app, Nat.sub_diag, skipn_all. cbn [app].
  change (skipn 0 (neutral ++ repeat x00 32)) with (neutral ++ repeat x00 32).
  do 2 f_equal. exact (neutral_verifies key msg I).
Qed.

(** C103. These four are all: the keys that are read as the neutral element of the group (0, 1). *)
Lemma p_C103_there_are_four_such_keys :
  forall (key : list byte) (a : point),
    px a = f0 -> py a = f1 -> (reads_as key a <-> In key neutral_keys) /\ NoDup neutral_keys.
Proof.
  intros key a X Y.
  assert (a = pzero) as -> by (apply point_eq; [exact X|exact Y]).
  split; [rewrite reads_decodes; apply neutral_key_decodes|].
  repeat (constructor; [intros I; repeat (destruct I as [I|I]; [discriminate I|]); exact I|]). constructor.
Qed.

Example ex_C103_reads_as_a_point : reads_as neutral pzero.
Proof. apply reads_decodes, neutral_key_decodes. now left. Qed.

(** ** Signing is what RFC 8032 says *)
Lemma secret_scalar_ok seed : is_secret_scalar (firstn 32 (sha512 seed)) (secret_scalar seed).
Proof.
  unfold is_secret_scalar, secret_scalar. rewrite le_number_int. generalize (le_int (firstn 32 (sha512 seed))). intros h.
  pose proof (Z.mod_pos_bound h (2 ^ 254) eq_refl) as M.
  set (x := h mod 2 ^ 254) in *.
  assert (B : 0 <= x / 8 * 8 < 2 ^ 254).
  { pose proof (Z.div_pos x 8). pose proof (Z.mul_div_le x 8). lia. }
  split; [lia|]. intros i Hi.
  assert (A : x / 8 * 8 + 2 ^ 254 = Z.lor (x / 8 * 8) (2 ^ 254)).
  { assert (N : Z.land (x / 8 * 8) (2 ^ 254) = 0); [|now rewrite Z.add_nocarry_lxor, Z.lxor_lor by exact N].
    apply Z.bits_inj'. intros j Hj.
    rewrite Z.land_spec, Z.bits_0, Z.pow2_bits_eqb by lia. destruct (Z.eqb_spec 254 j) as [<-|]; [|apply andb_false_r].
    rewrite andb_true_r. destruct (Z.eq_dec (x / 8 * 8) 0) as [->|N]; [apply Z.bits_0|].
    apply Z.bits_above_log2; [lia|]. apply Z.log2_lt_pow2; lia. }
  rewrite A, Z.lor_spec, Z.pow2_bits_eqb by lia.
  replace (x / 8 * 8) with (Z.shiftl (Z.shiftr x 3) 3) by (rewrite Z.shiftl_mul_pow2, Z.shiftr_div_pow2 by lia; reflexivity).
  rewrite Z.shiftl_spec by lia. destruct (Z.ltb_spec i 3).
  - rewrite Z.testbit_neg_r by lia. destruct (Z.eqb_spec 254 i); [lia|reflexivity].
  - rewrite Z.shiftr_spec by lia. replace (i - 3 + 3) with i by lia. rewrite (Z.eqb_sym 254 i).
    destruct (Z.eqb_spec i 254) as [->|N]; [apply orb_true_r|]. rewrite orb_false_r. unfold x.
    apply Z.mod_pow2_bits_low. lia.
Qed.
Lemma secret_scalar_unique h a b : is_secret_scalar h a -> is_secret_scalar h b -> a = b.
Proof.
  intros [Ra Ha] [Rb Hb]. apply Z.bits_inj'. intros i Hi. destruct (Z_lt_le_dec i 255) as [L|L].
  - now rewrite Ha, Hb by lia.
  - assert (X : forall z, 0 <= z < 2 ^ 255 -> Z.testbit z i = false).
    { intros z Hz. destruct (Z.eq_dec z 0) as [->|N]; [apply Z.bits_0|]. apply Z.bits_above_log2; [lia|].
      apply Z.lt_le_trans with 255; [|lia]. apply Z.log2_lt_pow2; lia. }
    now rewrite !X.
Qed.

Lemma short_sha512 m : (len m < 2 ^ 65)%N -> is_sha512 m (sha512 m).
Proof. intros H. apply sha512_is_sha512. eapply N.lt_trans; [exact H|reflexivity]. Qed.
Lemma seed_sha512 seed : length seed = 32%nat -> is_sha512 seed (sha512 seed).
Proof. intros L. apply short_sha512. unfold len. rewrite L. reflexivity. Qed.

Lemma public_key_spec seed key : length seed = 32%nat -> (key = ed_public_key seed <-> is_public_key seed key).
Proof.
  intros L. unfold ed_public_key. rewrite (compress_ok _ _ (mul_base _)). split.
  - intros ->. exists base, (sha512 seed), (secret_scalar seed).
    split; [apply base_is_base|]. split; [now apply seed_sha512|]. split; [apply secret_scalar_ok|]. now apply encodes_encode.
  - intros (B & dg & a & HB & HD & HA & HK). apply is_base_unique in HB. subst B.
    rewrite (is_sha512_unique _ _ _ HD (seed_sha512 _ L)) in HA.
    rewrite <- (secret_scalar_unique _ _ _ HA (secret_scalar_ok seed)). now apply encodes_encode.
Qed.

Lemma le_int_inj a b : length a = length b -> le_int a = le_int b -> a = b.
Proof. intros L E. rewrite <- (le_bytes_int a), <- (le_bytes_int b), L, E. reflexivity. Qed.

Lemma mod_sum a b c : ((a mod ed_L) + (b mod ed_L) * c) mod ed_L = (a + b * c) mod ed_L.
Proof.
  rewrite Zplus_mod_idemp_l. rewrite <- Zplus_mod_idemp_r, Zmult_mod_idemp_l, Zplus_mod_idemp_r. reflexivity.
Qed.

Lemma signature_spec seed msg sig : length seed = 32%nat -> (len msg < 2 ^ 64)%N ->
  (sig = ed_sign seed msg <-> is_signature seed msg sig).
Proof.
  intros L Lm.
  assert (H1 : is_sha512 (skipn 32 (sha512 seed) ++ msg) (sha512 (secret_prefix seed ++ msg))).
  { apply short_sha512. unfold len, secret_prefix in *. rewrite app_length, skipn_length, sha512_length, Nat2N.inj_add.
    change (N.of_nat (64 - 32)) with 32%N. clear - Lm. generalize dependent (N.of_nat (length msg)). intros n H.
    apply N.lt_trans with (32 + 2 ^ 64)%N; [|reflexivity]. lia. }
  assert (H2 : forall r key, length r = 32%nat -> length key = 32%nat -> is_sha512 (r ++ key ++ msg) (sha512 (r ++ key ++ msg))).
  { intros r key Lr Lk. apply short_sha512. unfold len in *. rewrite !app_length, Lr, Lk, !Nat2N.inj_add.
    change (N.of_nat 32) with 32%N. clear - Lm. generalize dependent (N.of_nat (length msg)). intros n H.
    apply N.lt_trans with (64 + 2 ^ 64)%N; [|reflexivity]. lia. }
  assert (HB : forall m, times (le_number (sha512 m)) base = times (hash_scalar m) base).
  { intros m. rewrite le_number_int. unfold hash_scalar. symmetry. apply times_mod. apply le_int_range. }
  unfold ed_sign. cbv zeta.
  set (r := compress (ext_mul (hash_scalar (secret_prefix seed ++ msg)) base_point)).
  assert (Er : r = encode (times (hash_scalar (secret_prefix seed ++ msg)) base)) by apply (compress_ok _ _ (mul_base _)).
  assert (Lr : length r = 32%nat) by apply compress_length.
  assert (Lk : length (ed_public_key seed) = 32%nat) by apply compress_length.
  set (S := (hash_scalar (secret_prefix seed ++ msg) + hash_scalar (r ++ ed_public_key seed ++ msg) * secret_scalar seed) mod ed_L).
  assert (RS : 0 <= S < ed_L) by (apply Z.mod_pos_bound, ed_L_pos).
  assert (ES : S = (le_number (sha512 (secret_prefix seed ++ msg)) + le_number (sha512 (r ++ ed_public_key seed ++ msg)) * secret_scalar seed) mod order).
  { rewrite order_L, !le_number_int. unfold S, hash_scalar. apply mod_sum. }
  split.
  - intros ->. exists base, (sha512 seed), (ed_public_key seed), (sha512 (secret_prefix seed ++ msg)),
      (sha512 (r ++ ed_public_key seed ++ msg)), r, (le_bytes 32 S), (secret_scalar seed).
    split; [apply base_is_base|]. split; [now apply seed_sha512|]. split; [apply secret_scalar_ok|].
    split. { unfold ed_public_key. rewrite (compress_ok _ _ (mul_base _)). now apply encodes_encode. }
    split; [exact H1|]. split; [now apply H2|]. split; [reflexivity|].
    split. { rewrite HB. now apply encodes_encode. }
    split; [apply le_bytes_length|]. rewrite <- ES, le_number_int. now apply ed_L_bytes.
  - intros (B & dg & key & rs & ks & r' & s & a & HBs & HD & HA & HK & HR & HS & -> & HE & Ls & Es).
    apply is_base_unique in HBs. subst B.
    pose proof (is_sha512_unique _ _ _ HD (seed_sha512 _ L)) as ->. clear HD.
    pose proof (secret_scalar_unique _ _ _ HA (secret_scalar_ok seed)) as ->. clear HA.
    apply encodes_encode in HK. assert (EK : key = ed_public_key seed).
    { rewrite HK. unfold ed_public_key. now rewrite (compress_ok _ _ (mul_base _)). }
    clear HK. subst key.
    pose proof (is_sha512_unique _ _ _ HR H1) as ->. clear HR.
    apply encodes_encode in HE. rewrite HB, <- Er in HE. subst r'.
    rewrite (is_sha512_unique _ _ _ HS (H2 _ _ Lr Lk)) in Es. clear HS. rewrite <- ES, le_number_int in Es.
    f_equal. apply le_int_inj; [now rewrite le_bytes_length|]. rewrite ed_L_bytes by exact RS. exact Es.
Qed.

(** C104. A key pair made from a seed has the public key that RFC 8032, 5.1.5, defines, and no other. *)
Lemma p_C104_public_key_of_a_seed :
  forall (from_pkcs8 : list byte -> option (list byte)) (seed key : list byte) (k : keypair (ring_ed25519 from_pkcs8)),
    keypair_from_seed_unchecked (ring_ed25519 from_pkcs8) seed = Ok k ->
    (public_key k = Ok key <-> is_public_key seed key).
Proof.
  intros f seed key k K.
  assert (E : k = seed /\ length seed = 32%nat).
  { unfold keypair_from_seed_unchecked in K. cbn [ring_ed25519 ring_from_seed_unchecked] in K.
    destruct (Nat.eqb_spec (length seed) 32); cbn [ok_or] in K; split; congruence. }
  destruct E as [-> L]. rewrite <- public_key_spec by exact L.
  rewrite (public_key_ok _ (p_C100_ed25519_meets_the_laws f) seed).
  change (ring_public_key (ring_ed25519 f) seed) with (ed_public_key seed). split; congruence.
Qed.

(** C104. Signing a packet with a key pair made from a seed appends the signature that RFC 8032, 5.1.6, defines for the
    seed and the bytes of the packet, and nothing else: signatures are deterministic, and another implementation of the RFC
    makes the same ones. *)
Lemma p_C104_signature_of_a_seed :
  forall (from_pkcs8 : list byte -> option (list byte)) (seed msg : list byte) (k : keypair (ring_ed25519 from_pkcs8)) (q : packet),
    keypair_from_seed_unchecked (ring_ed25519 from_pkcs8) seed = Ok k -> (len msg < 2 ^ 64)%N ->
    (packet_sign (Packet msg) k = Ok q <-> exists sig, is_signature seed msg sig /\ q = Packet (msg ++ sig)).
Proof.
  intros f seed msg k q K Lm.
  assert (E : k = seed /\ length seed = 32%nat).
  { unfold keypair_from_seed_unchecked in K. cbn [ring_ed25519 ring_from_seed_unchecked] in K.
    destruct (Nat.eqb_spec (length seed) 32); cbn [ok_or] in K; split; congruence. }
  destruct E as [-> L]. rewrite (sign_ok _ (p_C100_ed25519_meets_the_laws f)). cbn [packet_bytes]. split.
  - intros H. exists (ed_sign seed msg). split; [now apply signature_spec|].
    change (ring_sign (ring_ed25519 f) seed msg) with (ed_sign seed msg) in H. congruence.
  - intros (sig & H & ->). apply signature_spec in H; [|exact L|exact Lm]. now rewrite H.
Qed.

Example ex_C104_seed :
  exists k key q, keypair_from_seed_unchecked (ring_ed25519 (fun _ => None)) (repeat x05 32) = Ok k /\
    public_key k = Ok key /\ is_public_key (repeat x05 32) key /\
    packet_sign (Packet [x01; x02; x03]) k = Ok q /\ length (packet_raw q) = 67%nat.
Proof.
  pose proof (p_C100_ed25519_meets_the_laws (fun _ => None)) as LW.
  exists (repeat x05 32), (ed_public_key (repeat x05 32)).
  destruct (p_C28_sign_appends _ LW (repeat x05 32) (Packet [x01; x02; x03])) as (q & sig & E & R & Ls & _).
  exists q. split; [reflexivity|]. split; [exact (public_key_ok _ LW (repeat x05 32))|].
  split; [now apply public_key_spec|]. split; [exact E|]. rewrite R, app_length, Ls. reflexivity.
Qed.

Lemma verify_embedded_ext (C C' : ed25519) : (forall k m s, ring_verify C k m s = ring_verify C' k m s) ->
  forall d, verify_embedded C d = verify_embedded C' d.
Proof.
  intros H d. unfold verify_embedded. destruct (next_payload TBinMember d) as [d' [v|e|x]]; try reflexivity.
  unfold verify_with. cbv zeta. unfold verify_raw. now rewrite H.
Qed.

(** nobody's key pair *)
Definition neutral_scheme (key : list byte) : ed25519 :=
  {| ring_keypair := unit; ring_public_key := fun _ => key; ring_sign := fun _ _ => neutral ++ repeat x00 32;
     ring_verify := ed_verify; ring_from_seed_unchecked := fun _ => Some tt;
     ring_from_seed_and_public_key := fun _ pk => if bytes_eqb pk key then Some tt else None;
     ring_from_pkcs8 := fun _ => None |}.
Lemma neutral_laws key : In key neutral_keys -> ed25519_laws (neutral_scheme key).
Proof.
  intros I. split.
  - intros k. cbn. now repeat (destruct I as [<-|I]; [reflexivity|]).
  - intros k m. reflexivity.
  - intros k m. exact (neutral_verifies key m I).
  - intros s L. now exists tt.
  - intros s pk. reflexivity.
Qed.

(** C103. So anybody can make packets that [verify] accepts, for the four identities that go with these keys, without any
    secret: header, authentication payload with that key, any payloads, and the fixed 64 bytes. *)
Lemma p_C103_verified_without_a_secret :
  forall (from_pkcs8 : list byte -> option (list byte)) (key ekey mid : list byte) (mt : byte) (l : list payload) (p0 unsigned : packet),
    In key neutral_keys -> length ekey = 32%nat -> length mid = 20%nat ->
    Forall (fun x => in_range (projT1 x) (projT2 x)) l ->
    readable_sequence self_delimiting raw_at_end_only (map ptype l) = true ->
    packet_new (py_ipv8_header mid mt) = Ok p0 ->
    add_all p0 (existT tval TBinMember (BinMember key ekey) :: l) = Ok unsigned ->
    exists d1 d2 d3,
      pop_header (start_deserialize (Packet (packet_raw unsigned ++ neutral ++ repeat x00 32))) = (d1, Ok (spec_header mid mt)) /\
      verify_embedded (ring_ed25519 from_pkcs8) d1 = (d2, Ok true) /\
      read_all d2 (map ptype l) = (d3, Ok (map transmitted_payload l)) /\
      pntr d2 = unsigned /\ d3 = {| pntr := unsigned; index := length (packet_raw unsigned) |}.
Proof.
  intros f key ekey mid mt l p0 u Ik Le Lm Fr Rs H0 H1.
  pose proof (neutral_laws key Ik) as LW. set (C := neutral_scheme key) in *.
  pose proof (p_C31_signed_message_end_to_end C LW tt key ekey mid mt l p0 u (Packet (packet_raw u ++ neutral ++ repeat x00 32))) as T.
  destruct T as (d1 & d2 & d3 & T1 & T2 & T3); try assumption.
  - exact (public_key_ok C LW tt).
  - rewrite (sign_ok C LW). reflexivity.
  - exists d1, d2, d3. split; [exact T1|]. split; [|exact T3]. rewrite <- T2. apply verify_embedded_ext. reflexivity.
Qed.

Example ex_C103_unsigned :
  exists p0 unsigned, packet_new (py_ipv8_header (repeat x2a 20) x01) = Ok p0 /\
    add_all p0 (existT tval TBinMember (BinMember neutral (repeat x06 32)) :: example_payloads) = Ok unsigned /\
    length (packet_raw unsigned) = 131%nat.
Proof. do 2 eexists. repeat (split; [vm_compute; reflexivity|]). vm_compute. reflexivity. Qed.

(** ** Signatures are not unique *)

(** C108. The holder of a key pair can make a valid signature of any content for every point r B: the first half of a signature is free, the
    second one is determined by it (C102). *)
Lemma p_C108_a_valid_signature_for_every_nonce :
  forall (from_pkcs8 : list byte -> option (list byte)) (seed key msg : list byte) (k : keypair (ring_ed25519 from_pkcs8))
         (B : point) (r : Z) (i : nat),
    keypair_from_seed_unchecked (ring_ed25519 from_pkcs8) seed = Ok k -> public_key k = Ok key -> is_base B -> 0 <= r ->
    exists first second, encodes first (times r B) /\ length second = 32%nat /\
      verify_with (ring_ed25519 from_pkcs8) key {| pntr := Packet (msg ++ first ++ second); index := i |}
        = ({| pntr := Packet msg; index := i |}, Ok true).
Proof.
  intros f seed key msg k B r i K PK HB Hr. apply is_base_unique in HB. subst B.
  assert (E : k = seed).
  { unfold keypair_from_seed_unchecked in K. cbn [ring_ed25519 ring_from_seed_unchecked] in K.
    destruct (length seed =? 32)%nat; cbn [ok_or] in K; congruence. }
  subst k. rewrite (public_key_ok _ (p_C100_ed25519_meets_the_laws f) seed) in PK.
  change (ring_public_key (ring_ed25519 f) seed) with (ed_public_key seed) in PK.
  assert (EK : key = ed_public_key seed) by congruence. clear PK K. subst key.
  exists (compress (ext_mul r base_point)).
  exists (le_bytes 32 ((r + hash_scalar (compress (ext_mul r base_point) ++ ed_public_key seed ++ msg) * secret_scalar seed) mod ed_L)).
  split; [apply encodes_encode, compress_ok, mul_base|]. split; [apply le_bytes_length|].
  pose proof (verify_sign_with r seed msg Hr) as V. unfold sign_with in V. cbv zeta in V.
  set (g := compress (ext_mul r base_point) ++ _) in *.
  assert (Lg : length g = 64%nat) by (unfold g; rewrite app_length, compress_length, le_bytes_length; reflexivity).
  assert (Le : length (msg ++ g) = (length msg + 64)%nat) by (rewrite app_length, Lg; reflexivity).
  rewrite verify_with_eq by (rewrite Le; lia). rewrite Le. replace (length msg + 64 - 64)%nat with (length msg) by lia.
  rewrite firstn_app, Nat.sub_diag, firstn_all, firstn_O, app_nil_r.
  rewrite skipn_app, Nat.sub_diag, skipn_all. cbn [app]. change (skipn 0 g) with g.
  do 2 f_equal. exact V.
Qed.

(** C108 (refuted). "verify_with accepts only the packets that Packet::sign makes": for every key pair and every content there
    is another accepted packet than the one [sign] makes, so signed packets must not be compared by their bytes, for
    instance to detect repetitions. *)
Lemma p_C108_signed_packets_are_unique_refuted :
  forall (from_pkcs8 : list byte -> option (list byte)) (seed key msg : list byte) (k : keypair (ring_ed25519 from_pkcs8)) (q : packet) (i : nat),
    keypair_from_seed_unchecked (ring_ed25519 from_pkcs8) seed = Ok k -> public_key k = Ok key ->
    packet_sign (Packet msg) k = Ok q ->
    exists other, packet_raw other <> packet_raw q /\
      verify_with (ring_ed25519 from_pkcs8) key {| pntr := other; index := i |}
        = verify_with (ring_ed25519 from_pkcs8) key {| pntr := q; index := i |} /\
      verify_with (ring_ed25519 from_pkcs8) key {| pntr := other; index := i |} = ({| pntr := Packet msg; index := i |}, Ok true).
Proof.
  intros f seed key msg k q i K PK S.
  set (r := hash_scalar (secret_prefix seed ++ msg)).
  pose proof (hash_scalar_range (secret_prefix seed ++ msg)) as Rr. fold r in Rr.
  set (r' := if r =? 0 then 1 else 0).
  assert (Rr' : 0 <= r' < ed_L /\ r' <> r) by (unfold r'; destruct (Z.eqb_spec r 0); split; try lia; reflexivity || (split; [lia|reflexivity])).
  destruct (p_C108_a_valid_signature_for_every_nonce f seed key msg k base r' i K PK base_is_base ltac:(lia)) as (fst' & snd' & E & L & V).
  pose proof (p_C29_sign_then_verify _ (p_C100_ed25519_meets_the_laws f) k key _ _ i PK S) as V0.
  assert (Ek : k = seed).
  { unfold keypair_from_seed_unchecked in K. cbn [ring_ed25519 ring_from_seed_unchecked] in K.
    destruct (length seed =? 32)%nat; cbn [ok_or] in K; congruence. }
  subst k. rewrite (sign_ok _ (p_C100_ed25519_meets_the_laws f)) in S. cbn [packet_bytes] in S.
  change (ring_sign (ring_ed25519 f) seed msg) with (ed_sign seed msg) in S.
  assert (Eq : q = Packet (msg ++ ed_sign seed msg)) by congruence. clear S. subst q.
  exists (Packet (msg ++ fst' ++ snd')). split; [|split; [rewrite V; symmetry; exact V0|exact V]].
  unfold packet_raw. cbn [packet_bytes]. intros X. apply app_inv_head in X. rewrite ed_sign_with in X. unfold sign_with in X. cbv zeta in X.
  fold r in X. apply app_inj_head_length in X as [X _]; [|rewrite compress_length; exact (proj1 E)].
  apply encodes_encode in E. rewrite X, (compress_ok _ _ (mul_base r)) in E. apply encode_inj, times_base_inj in E; [|exact Rr|apply Rr'].
  symmetry in E. exact (proj2 Rr' E).
Qed.
