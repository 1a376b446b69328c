(** * Utf8Facts: the check made by [std::str::from_utf8] accepts exactly the encodings of scalar values *)
From Coq Require Import Strings.String ZifyN.
From Verif Require Import Base Serde Codec Universe Spec SerdeFacts.
Open Scope N_scope.

Local Ltac Zify.zify_post_hook ::= Z.div_mod_to_equations.

Lemma between_byte lo hi n : n < 256 -> between lo hi (byte_of_N n) = (lo <=? n) && (n <=? hi).
Proof. intros H. unfold between. rewrite N_of_byte_of_N, N.mod_small by exact H. reflexivity. Qed.
Lemma between_iff lo hi b : between lo hi b = true <-> lo <= N_of_byte b <= hi.
Proof. unfold between. rewrite andb_true_iff, !N.leb_le. reflexivity. Qed.
Lemma between_not lo hi b : between lo hi b = false <-> N_of_byte b < lo \/ hi < N_of_byte b.
Proof. unfold between. rewrite andb_false_iff, !N.leb_gt. reflexivity. Qed.

Lemma decide_between lo hi n (P : bool) : n < 256 -> ((lo <=? n) && (n <=? hi)) = P -> between lo hi (byte_of_N n) = P.
Proof. intros H. now rewrite between_byte. Qed.

Lemma bs_app a b : bs (a ++ b) = bs a ++ bs b.
Proof. apply map_app. Qed.

Lemma b2 (lo hi n : N) : n < 256 -> lo <= n <= hi -> between lo hi (byte_of_N n) = true.
Proof. intros H1 H2. rewrite between_byte by exact H1. apply andb_true_iff. rewrite !N.leb_le. lia. Qed.
Lemma b2' (lo hi n : N) : n < 256 -> n < lo \/ hi < n -> between lo hi (byte_of_N n) = false.
Proof. intros H1 H2. rewrite between_byte by exact H1. apply andb_false_iff. rewrite !N.leb_gt. lia. Qed.

Lemma utf8_valid_char c r : is_scalar c -> utf8_valid (utf8_char c ++ r) = utf8_valid r.
Proof.
  intros H. unfold utf8_char.
  destruct (N.ltb_spec c 0x80) as [H1|H1].
  { cbn [bs map app utf8_valid]. now rewrite b2 by lia. }
  destruct (N.ltb_spec c 0x800) as [H2|H2].
  { cbn [bs map app utf8_valid]. rewrite (b2' 0 0x7F), (b2 0xC2 0xDF) by lia.
    unfold continuation. rewrite b2 by lia. reflexivity. }
  destruct (N.ltb_spec c 0x10000) as [H3|H3].
  { cbn [bs map app utf8_valid]. rewrite (b2' 0 0x7F), (b2' 0xC2 0xDF), (b2 0xE0 0xEF) by lia.
    rewrite N_of_byte_of_N, N.mod_small by lia.
    unfold continuation. rewrite !b2; try lia; [reflexivity|].
    unfold is_scalar in H.
    destruct (N.eqb_spec (0xE0 + c / 4096) 0xE0), (N.eqb_spec (0xE0 + c / 4096) 0xED); lia. }
  cbn [bs map app utf8_valid]. unfold is_scalar in H.
  rewrite (b2' 0 0x7F), (b2' 0xC2 0xDF), (b2' 0xE0 0xEF), (b2 0xF0 0xF4) by lia.
  rewrite N_of_byte_of_N, N.mod_small by lia.
  unfold continuation. rewrite !b2; try lia; [reflexivity|].
  destruct (N.eqb_spec (0xF0 + c / 262144) 0xF0), (N.eqb_spec (0xF0 + c / 262144) 0xF4); lia.
Qed.

Lemma byte_eq b n : N_of_byte b = n -> b = byte_of_N n.
Proof. intros <-. symmetry. apply byte_of_N_of_byte. Qed.

Lemma utf8_valid_first b l :
  utf8_valid (b :: l) = true ->
  exists c r, is_scalar c /\ b :: l = utf8_char c ++ r /\ utf8_valid r = true /\ (length r <= length l)%nat.
Proof.
  cbn [utf8_valid]. pose proof (N_of_byte_lt b) as B0.
  destruct (between 0 0x7F b) eqn:E1.
  { apply between_iff in E1. intros H. exists (N_of_byte b), l. split; [left; lia|].
    split; [|auto]. unfold utf8_char.
    destruct (N.ltb_spec (N_of_byte b) 0x80); [|lia]. cbn [bs map app]. now rewrite byte_of_N_of_byte. }
  apply between_not in E1.
  destruct (between 0xC2 0xDF b) eqn:E2.
  { apply between_iff in E2. destruct l as [|b1 r]; [discriminate|].
    rewrite andb_true_iff. intros [C1 H]. apply between_iff in C1.
    exists ((N_of_byte b - 0xC0) * 64 + (N_of_byte b1 - 0x80)), r. unfold is_scalar.
    split; [lia|]. split; [|cbn [length]; auto].
    unfold utf8_char. destruct (N.ltb_spec ((N_of_byte b - 0xC0) * 64 + (N_of_byte b1 - 0x80)) 0x80); [lia|].
    destruct (N.ltb_spec ((N_of_byte b - 0xC0) * 64 + (N_of_byte b1 - 0x80)) 0x800); [|lia].
    cbn [bs map app]. repeat f_equal; apply byte_eq; lia. }
  destruct (between 0xE0 0xEF b) eqn:E3.
  { apply between_iff in E3. destruct l as [|b1 [|b2 r]]; try discriminate.
    rewrite !andb_true_iff. intros [[C1 C2] H]. apply between_iff in C1, C2.
    set (c := (N_of_byte b - 0xE0) * 4096 + (N_of_byte b1 - 0x80) * 64 + (N_of_byte b2 - 0x80)).
    exists c, r.
    assert (C1' : 0x80 <= N_of_byte b1 <= 0xBF).
    { destruct (N_of_byte b =? 0xE0), (N_of_byte b =? 0xED); lia. }
    assert (Hc : 0x800 <= c < 0x10000 /\ is_scalar c).
    { unfold is_scalar, c. destruct (N.eqb_spec (N_of_byte b) 0xE0), (N.eqb_spec (N_of_byte b) 0xED); lia. }
    split; [apply Hc|]. split; [|cbn [length]; auto].
    unfold utf8_char. destruct (N.ltb_spec c 0x80); [lia|]. destruct (N.ltb_spec c 0x800); [lia|].
    destruct (N.ltb_spec c 0x10000); [|lia].
    cbn [bs map app]. unfold c in *. repeat f_equal; apply byte_eq; lia. }
  destruct (between 0xF0 0xF4 b) eqn:E4; [|discriminate].
  apply between_iff in E4. destruct l as [|b1 [|b2 [|b3 r]]]; try discriminate.
  rewrite !andb_true_iff. intros [[[C1 C2] C3] H]. apply between_iff in C1, C2, C3.
  set (c := (N_of_byte b - 0xF0) * 262144 + (N_of_byte b1 - 0x80) * 4096 + (N_of_byte b2 - 0x80) * 64 + (N_of_byte b3 - 0x80)).
  exists c, r.
  assert (C1' : 0x80 <= N_of_byte b1 <= 0xBF).
  { destruct (N_of_byte b =? 0xF0), (N_of_byte b =? 0xF4); lia. }
  assert (Hc : 0x10000 <= c < 0x110000).
  { unfold c. destruct (N.eqb_spec (N_of_byte b) 0xF0), (N.eqb_spec (N_of_byte b) 0xF4); lia. }
  split; [right; lia|]. split; [|cbn [length]; auto].
  unfold utf8_char. destruct (N.ltb_spec c 0x80); [lia|]. destruct (N.ltb_spec c 0x800); [lia|].
  destruct (N.ltb_spec c 0x10000); [lia|].
  cbn [bs map app]. unfold c in *. repeat f_equal; apply byte_eq; lia.
Qed.

Theorem utf8_valid_iff l : utf8_valid l = true <-> is_utf8 l.
Proof.
  split.
  - remember (length l) as n eqn:Hn. revert l Hn.
    induction n as [n IH] using lt_wf_ind. intros l -> H.
    destruct l as [|b l]; [now exists []|].
    destruct (utf8_valid_first b l H) as (c & r & Hc & E & Hr & L).
    destruct (IH (length r)) with (l := r) as (cs & Hcs & Er); [cbn; lia|reflexivity|exact Hr|].
    exists (c :: cs). split; [now constructor|]. cbn [flat_map]. now rewrite E, Er.
  - intros (cs & Hcs & ->). induction Hcs as [|c cs Hc Hcs IH]; [reflexivity|].
    cbn [flat_map]. now rewrite utf8_valid_char.
Qed.

(** ** One character *)

(** Disjoint bits: [lor] is addition. *)
Lemma lor_shifted a b k : b < 2 ^ k -> N.lor (N.shiftl a k) b = a * 2 ^ k + b.
Proof.
  intros H.
  assert (D : N.land (N.shiftl a k) b = 0).
  { apply N.bits_inj. intros i. rewrite N.land_spec, N.bits_0.
    destruct (N.ltb_spec i k) as [L|L].
    - now rewrite N.shiftl_spec_low.
    - assert (Hb : N.testbit b i = false).
      { rewrite <- (N.mod_small b (2 ^ k)) by exact H. now apply N.mod_pow2_bits_high. }
      rewrite Hb. apply andb_false_r. }
  rewrite <- N.lxor_lor, <- N.add_nocarry_lxor by exact D. now rewrite N.shiftl_mul_pow2.
Qed.

Lemma land_mask x k : N.land x (N.ones k) = x mod 2 ^ k.
Proof. apply N.land_ones. Qed.

Lemma lor_tail x : N.lor (N.land x 0x3F) 0x80 = 0x80 + x mod 64.
Proof.
  change 0x3F with (N.ones 6). rewrite land_mask, N.lor_comm. change 0x80 with (N.shiftl 2 6).
  rewrite lor_shifted; [reflexivity|]. apply N.mod_lt. easy.
Qed.
Lemma lor_head2 x : N.lor (N.land x 0x1F) 0xC0 = 0xC0 + x mod 32.
Proof.
  change 0x1F with (N.ones 5). rewrite land_mask, N.lor_comm. change 0xC0 with (N.shiftl 6 5).
  rewrite lor_shifted; [reflexivity|]. apply N.mod_lt. easy.
Qed.
Lemma lor_head3 x : N.lor (N.land x 0x0F) 0xE0 = 0xE0 + x mod 16.
Proof.
  change 0x0F with (N.ones 4). rewrite land_mask, N.lor_comm. change 0xE0 with (N.shiftl 14 4).
  rewrite lor_shifted; [reflexivity|]. apply N.mod_lt. easy.
Qed.
Lemma lor_head4 x : N.lor (N.land x 0x07) 0xF0 = 0xF0 + x mod 8.
Proof.
  change 0x07 with (N.ones 3). rewrite land_mask, N.lor_comm. change 0xF0 with (N.shiftl 30 3).
  rewrite lor_shifted; [reflexivity|]. apply N.mod_lt. easy.
Qed.

(** What [char::encode_utf8] writes is the UTF-8 encoding. *)
Lemma encode_utf8_char c : is_scalar c -> encode_utf8 c = utf8_char c.
Proof.
  intros H. unfold encode_utf8, utf8_char, bs. unfold is_scalar in H.
  rewrite !N.shiftr_div_pow2. change (2 ^ 6) with 64. change (2 ^ 12) with 4096. change (2 ^ 18) with 262144.
  rewrite !lor_tail, lor_head2, lor_head3, lor_head4.
  destruct (N.ltb_spec c 0x80); [reflexivity|].
  destruct (N.ltb_spec c 0x800).
  { rewrite (N.mod_small (c / 64) 32) by lia. reflexivity. }
  destruct (N.ltb_spec c 0x10000).
  { rewrite (N.mod_small (c / 4096) 16) by lia. reflexivity. }
  rewrite (N.mod_small (c / 262144) 8) by lia. reflexivity.
Qed.

Lemma shifted_mask x k j : N.shiftl (N.land x (N.ones k)) j = x mod 2 ^ k * 2 ^ j.
Proof. now rewrite land_mask, N.shiftl_mul_pow2. Qed.

Lemma first_char_2 a b :
  first_char [a; b] = N_of_byte a mod 32 * 64 + N_of_byte b mod 64.
Proof.
  cbn [first_char]. change 0x1F with (N.ones 5). change 0x3F with (N.ones 6). rewrite !land_mask.
  rewrite lor_shifted by (apply N.mod_lt; easy). reflexivity.
Qed.
Lemma first_char_3 a b c :
  first_char [a; b; c] = N_of_byte a mod 16 * 4096 + (N_of_byte b mod 64 * 64 + N_of_byte c mod 64).
Proof.
  cbn [first_char]. change 0x0F with (N.ones 4). change 0x3F with (N.ones 6). rewrite !land_mask.
  change (2 ^ 6) with 64. change (2 ^ 4) with 16.
  rewrite (lor_shifted (N_of_byte b mod 64)) by (apply N.mod_lt; easy). change (2 ^ 6) with 64.
  rewrite lor_shifted by (change (2 ^ 12) with 4096; lia). reflexivity.
Qed.
Lemma first_char_4 a b c d :
  first_char [a; b; c; d] =
  N_of_byte a mod 8 * 262144 + (N_of_byte b mod 64 * 4096 + (N_of_byte c mod 64 * 64 + N_of_byte d mod 64)).
Proof.
  cbn [first_char]. change 0x07 with (N.ones 3). change 0x3F with (N.ones 6). rewrite !land_mask.
  change (2 ^ 6) with 64. change (2 ^ 3) with 8.
  rewrite (lor_shifted (N_of_byte c mod 64)) by (apply N.mod_lt; easy). change (2 ^ 6) with 64.
  rewrite (lor_shifted (N_of_byte b mod 64)) by (change (2 ^ 12) with 4096; lia). change (2 ^ 12) with 4096.
  rewrite lor_shifted by (change (2 ^ 18) with 262144; lia). reflexivity.
Qed.

Lemma nb n : n < 256 -> N_of_byte (byte_of_N n) = n.
Proof. intros H. now rewrite N_of_byte_of_N, N.mod_small. Qed.

(** Reading back the encoding of a character, whatever follows *)
Lemma de_char_build c y : is_scalar c -> de_char (utf8_char c ++ y) = Ok (c, y).
Proof.
  intros H. pose proof (utf8_valid_char c [] H) as V. rewrite app_nil_r in V. change (utf8_valid []) with true in V. revert V.
  unfold utf8_char. unfold is_scalar in H.
  destruct (N.ltb_spec c 0x80) as [H1|H1].
  { intros _. cbn [bs map app]. unfold de_char. cbn [de_u8 bind]. unfold utf8_char_width.
    rewrite b2 by lia. now rewrite nb by lia. }
  destruct (N.ltb_spec c 0x800) as [H2|H2].
  { intros V. cbn [bs map app] in *. unfold de_char. cbn [de_u8 bind]. unfold utf8_char_width.
    rewrite (b2' 0 0x7F), (b2 0xC2 0xDF) by lia.
    cbn [length firstn skipn]. change (S (length y) <? 1)%nat with false. cbv iota zeta.
    rewrite V, first_char_2, !nb by lia. 
    clear V. match goal with |- Ok (?x, _) = _ => replace x with c by lia end. reflexivity. }
  destruct (N.ltb_spec c 0x10000) as [H3|H3].
  { intros V. cbn [bs map app] in *. unfold de_char. cbn [de_u8 bind]. unfold utf8_char_width.
    rewrite (b2' 0 0x7F), (b2' 0xC2 0xDF), (b2 0xE0 0xEF) by lia.
    cbn [length firstn skipn]. change (S (S (length y)) <? 2)%nat with false. cbv iota zeta.
    rewrite V, first_char_3, !nb by lia. 
    clear V. match goal with |- Ok (?x, _) = _ => replace x with c by lia end. reflexivity. }
  intros V. cbn [bs map app] in *. unfold de_char. cbn [de_u8 bind]. unfold utf8_char_width.
  rewrite (b2' 0 0x7F), (b2' 0xC2 0xDF), (b2' 0xE0 0xEF), (b2 0xF0 0xF4) by lia.
  cbn [length firstn skipn]. change (S (S (S (length y))) <? 3)%nat with false. cbv iota zeta.
  rewrite V, first_char_4, !nb by lia. 
    clear V. match goal with |- Ok (?x, _) = _ => replace x with c by lia end. reflexivity.
Qed.

Lemma utf8_char_nonempty c : (1 <= length (utf8_char c))%nat.
Proof. unfold utf8_char. repeat destruct (_ <? _); cbn; lia. Qed.

(** A prefix that is the encoding of one character, from the width of the first byte *)
Lemma de_char_ok b v r : de_char b = Ok (v, r) -> is_scalar v /\ b = utf8_char v ++ r.
Proof.
  unfold de_char. destruct b as [|x l]; [discriminate|]. cbn [de_u8 bind].
  assert (K : forall k, (1 <= k)%nat -> utf8_char_width x = S k -> (k <= length l)%nat ->
    utf8_valid (x :: firstn k l) = true -> exists c, is_scalar c /\ x :: l = utf8_char c ++ skipn k l).
  { intros k K1 W L V. destruct (utf8_valid_first _ _ V) as (c & t & Hc & E & _ & _).
    exists c. split; [exact Hc|].
    assert (Hl : length (x :: firstn k l) = S k) by (cbn; rewrite firstn_length; lia).
    assert (Ht : t = []).
    { destruct t as [|y t]; [reflexivity|]. exfalso.
      assert (W2 : utf8_char_width x = length (utf8_char c)).
      { unfold utf8_char in *. unfold is_scalar in Hc.
        destruct (N.ltb_spec c 0x80); [|destruct (N.ltb_spec c 0x800); [|destruct (N.ltb_spec c 0x10000)]];
          cbn [bs map app] in E; apply (f_equal (hd x)) in E; cbn [hd] in E; rewrite E; unfold utf8_char_width; cbn [bs map length].
        - now rewrite b2 by lia.
        - now rewrite (b2' 0 0x7F), (b2 0xC2 0xDF) by lia.
        - now rewrite (b2' 0 0x7F), (b2' 0xC2 0xDF), (b2 0xE0 0xEF) by lia.
        - now rewrite (b2' 0 0x7F), (b2' 0xC2 0xDF), (b2' 0xE0 0xEF), (b2 0xF0 0xF4) by lia. }
      rewrite E, app_length in Hl. cbn [length] in Hl. lia. }
    subst t. rewrite app_nil_r in E. rewrite <- E. cbn [app]. f_equal. symmetry. apply firstn_skipn. }
  destruct (utf8_char_width x) as [|[|k]] eqn:W; [discriminate| |].
  - intros [= <- <-]. unfold utf8_char_width in W. destruct (between 0 0x7F x) eqn:B.
    + apply between_iff in B. split; [left; lia|]. unfold utf8_char.
      destruct (N.ltb_spec (N_of_byte x) 0x80); [|lia]. cbn. now rewrite byte_of_N_of_byte.
    + repeat destruct (between _ _ _) in W; discriminate.
  - destruct (Nat.ltb_spec (length l) (S k)) as [L|L]; [discriminate|]. cbv zeta.
    destruct (utf8_valid (x :: firstn (S k) l)) eqn:V; [|discriminate].
    destruct (K (S k)) as (c & Hc & E); [lia|reflexivity|lia|exact V|].
    intros Hok. pose proof (de_char_build c (skipn (S k) l) Hc) as D. rewrite <- E in D.
    unfold de_char in D. cbn [de_u8 bind] in D. rewrite W in D.
    destruct (Nat.ltb_spec (length l) (S k)) as [L'|_]; [lia|]. cbv zeta in D. rewrite V in D.
    rewrite D in Hok. injection Hok as <- <-. now split.
Qed.

Lemma de_char_no_panic b p : de_char b <> Panic p.
Proof.
  unfold de_char. destruct b as [|x l]; [discriminate|]. cbn [de_u8 bind].
  destruct (utf8_char_width x) as [|[|k]]; try discriminate.
  destruct (_ <? _)%nat; [discriminate|]. cbv zeta. now destruct (utf8_valid _).
Qed.
