(** * Sha512Facts: Sha512.v computes what Sha512Spec.v describes *)
From Coq Require Import Strings.String.
From Verif Require Import Base Spec SerdeFacts CodecFacts UniverseFacts Sha512 Sha512Spec.
Open Scope N_scope.

Lemma lor_add64 a b : N.land a b = 0 -> N.lor a b = a + b.
Proof. intros H. now rewrite N.add_nocarry_lxor, N.lxor_lor. Qed.
Lemma testbit_high64 x i : x < 2 ^ 64 -> 64 <= i -> N.testbit x i = false.
Proof.
  intros H Hi. destruct (N.eq_dec x 0) as [->|N0]; [apply N.bits_0|].
  apply N.bits_above_log2. apply N.log2_lt_pow2 in H; lia.
Qed.
Lemma below_of_bits64 x : (forall i, 64 <= i -> N.testbit x i = false) -> x < 2 ^ 64.
Proof.
  intros H. destruct (N.eq_dec x 0) as [->|N0]; [reflexivity|].
  apply N.log2_lt_pow2; [lia|]. destruct (N.lt_ge_cases (N.log2 x) 64) as [L|L]; [exact L|].
  specialize (H _ L). rewrite N.bit_log2 in H by assumption. discriminate.
Qed.
Lemma mod_pow_bits64 a i : i < 64 -> N.testbit (a mod 2 ^ 64) i = N.testbit a i.
Proof. intros H. now apply N.mod_pow2_bits_low. Qed.

Lemma rotr_ror k x : k <= 64 -> x < 2 ^ 64 -> rotr64 k x = ror k x.
Proof.
  intros Hk Hx. unfold rotr64, ror. change w64 with (2 ^ 64).
  rewrite lor_add64.
  - now rewrite N.shiftl_mul_pow2, N.shiftr_div_pow2.
  - apply N.bits_inj. intros i. rewrite N.bits_0, N.land_spec.
    destruct (N.lt_ge_cases i (64 - k)) as [H|H].
    + rewrite mod_pow_bits64 by lia. rewrite N.shiftl_spec_low by lia. apply andb_false_r.
    + rewrite N.shiftr_spec', (testbit_high64 x) by (assumption || lia). reflexivity.
Qed.
Lemma rotr_lt k x : k <= 64 -> x < 2 ^ 64 -> rotr64 k x < 2 ^ 64.
Proof.
  intros Hk Hx. apply below_of_bits64. intros i Hi. unfold rotr64. change w64 with (2 ^ 64).
  rewrite N.lor_spec, N.mod_pow2_bits_high, N.shiftr_spec', (testbit_high64 x) by (assumption || lia). reflexivity.
Qed.
Lemma shr_lt k x : x < 2 ^ 64 -> N.shiftr x k < 2 ^ 64.
Proof.
  intros Hx. apply below_of_bits64. intros i Hi. rewrite N.shiftr_spec', (testbit_high64 x) by (assumption || lia). reflexivity.
Qed.
Lemma lxor_lt64 x y : x < 2 ^ 64 -> y < 2 ^ 64 -> N.lxor x y < 2 ^ 64.
Proof.
  intros Hx Hy. apply below_of_bits64. intros i Hi. now rewrite N.lxor_spec, !testbit_high64.
Qed.

Lemma Ch_is_ch x y z : x < 2 ^ 64 -> y < 2 ^ 64 -> z < 2 ^ 64 -> is_ch x y z (Ch x y z).
Proof.
  intros Hx Hy Hz. unfold is_ch, Ch.
  assert (Hn : forall i, i < 64 -> N.testbit 18446744073709551615 i = true).
  { intros i Hi. change 18446744073709551615 with (N.ones 64). now apply N.ones_spec_low. }
  split.
  - apply below_of_bits64. intros i Hi. rewrite N.lxor_spec, !N.land_spec, (testbit_high64 x), (testbit_high64 z) by assumption.
    cbn. now rewrite andb_false_r.
  - intros i Hi. unfold not64. rewrite N.lxor_spec, !N.land_spec, N.lxor_spec, Hn by assumption.
    now destruct (N.testbit x i), (N.testbit y i), (N.testbit z i).
Qed.
Lemma Maj_is_maj x y z : x < 2 ^ 64 -> y < 2 ^ 64 -> z < 2 ^ 64 -> is_maj x y z (Maj x y z).
Proof.
  intros Hx Hy Hz. unfold is_maj, Maj. split.
  - apply below_of_bits64. intros i Hi.
    rewrite !N.lxor_spec, !N.land_spec, (testbit_high64 x), (testbit_high64 y) by assumption. reflexivity.
  - intros i _. rewrite !N.lxor_spec, !N.land_spec.
    now destruct (N.testbit x i), (N.testbit y i), (N.testbit z i).
Qed.
Lemma Sigma0_big0 x : x < 2 ^ 64 -> Sigma0 x = big0 x.
Proof. intros H. unfold Sigma0, big0, xor3. rewrite !rotr_ror by (assumption || lia). apply N.lxor_assoc. Qed.
Lemma Sigma1_big1 x : x < 2 ^ 64 -> Sigma1 x = big1 x.
Proof. intros H. unfold Sigma1, big1, xor3. rewrite !rotr_ror by (assumption || lia). apply N.lxor_assoc. Qed.
Lemma sigma0_small0 x : x < 2 ^ 64 -> sigma0 x = small0 x.
Proof. intros H. unfold sigma0, small0, xor3, shr. rewrite !rotr_ror, N.shiftr_div_pow2 by (assumption || lia). apply N.lxor_assoc. Qed.
Lemma sigma1_small1 x : x < 2 ^ 64 -> sigma1 x = small1 x.
Proof. intros H. unfold sigma1, small1, xor3, shr. rewrite !rotr_ror, N.shiftr_div_pow2 by (assumption || lia). apply N.lxor_assoc. Qed.

(** ** Constants *)
Definition check_constant (t : nat) (i : N) : bool :=
  let c := nth t K512 0 in
  (c <? 2 ^ 64) && ((i * 2 ^ 64 + c) ^ 3 <=? nth_prime t * 2 ^ 192) && (nth_prime t * 2 ^ 192 <? (i * 2 ^ 64 + c + 1) ^ 3).
Lemma constants_checked : forallb (fun t => existsb (check_constant t) [1; 2; 3; 4; 5; 6; 7]) (seq 0 80) = true.
Proof. vm_compute. reflexivity. Qed.
Lemma K512_constant t : (t < 80)%nat -> is_constant512 t (nth t K512 0).
Proof.
  intros H. pose proof constants_checked as C. rewrite forallb_forall in C. specialize (C t). rewrite in_seq in C.
  specialize (C ltac:(lia)). apply existsb_exists in C as (i & _ & C). unfold check_constant in C. cbv zeta in C.
  apply andb_prop in C as [C C3]. apply andb_prop in C as [C1 C2]. apply N.ltb_lt in C1, C3. apply N.leb_le in C2.
  split; [exact C1|]. exists i. split; assumption.
Qed.
Lemma constant512_unique t c c' : is_constant512 t c -> is_constant512 t c' -> c = c'.
Proof.
  intros (L & i & A & B) (L' & i' & A' & B').
  assert (M : forall a b, a ^ 3 < b ^ 3 -> a < b).
  { intros a b H. destruct (N.lt_ge_cases a b) as [X|X]; [exact X|]. apply (N.pow_le_mono_l _ _ 3) in X. lia. }
  pose proof (M _ _ (N.le_lt_trans _ _ _ A B')) as X. pose proof (M _ _ (N.le_lt_trans _ _ _ A' B)) as Y.
  assert (E : i * 2 ^ 64 + c = i' * 2 ^ 64 + c') by (clear - X Y; generalize dependent (i * 2 ^ 64); generalize dependent (i' * 2 ^ 64); intros; lia).
  rewrite <- (N.mod_small c (2 ^ 64)), <- (N.mod_small c' (2 ^ 64)) by assumption.
  rewrite <- (N.mod_add c i), <- (N.mod_add c' i') by discriminate. rewrite (N.add_comm c), (N.add_comm c'). now rewrite E.
Qed.

(** ** Schedule *)
Definition good64 (l : list N) : Prop := Forall (fun x => x < 2 ^ 64) l.
Definition linked64 (l : list N) : Prop :=
  forall t, (16 <= t < length l)%nat ->
    nth t l 0 = plus64 (plus64 (plus64 (small1 (nth (t - 2) l 0)) (nth (t - 7) l 0)) (small0 (nth (t - 15) l 0))) (nth (t - 16) l 0).
Lemma nth_good64 i l : good64 l -> nth i l 0 < 2 ^ 64.
Proof.
  intros H. destruct (Nat.lt_ge_cases i (length l)) as [L|L].
  - unfold good64 in H. rewrite Forall_forall in H. apply H. now apply nth_In.
  - rewrite nth_overflow by assumption. reflexivity.
Qed.
Lemma add64_lt a b : add64 a b < 2 ^ 64.
Proof. unfold add64. now apply N.mod_lt. Qed.
Lemma extend_linked64 n : forall r, (16 <= length r)%nat -> good64 r -> linked64 (rev r) ->
  exists l, extend512 n r = l ++ r /\ length l = n /\ good64 (extend512 n r) /\ linked64 (rev (extend512 n r)).
Proof.
  induction n as [|n IH]; intros r Hl Hg Hk; cbn [extend512].
  - exists []. auto.
  - set (x := add64 _ _).
    assert (Hx : x < 2 ^ 64) by apply add64_lt.
    destruct (IH (x :: r)) as (l & E & L & G & K).
    + cbn. lia.
    + now constructor.
    + intros t Ht. cbn [rev] in *. rewrite app_length, rev_length in Ht. cbn [length] in Ht.
      destruct (Nat.eq_dec t (length r)) as [->|Ne].
      * rewrite app_nth2, rev_length, Nat.sub_diag by (rewrite rev_length; lia). cbn [nth].
        rewrite !app_nth1 by (rewrite rev_length; lia). rewrite !rev_nth by lia.
        unfold x.
        replace (length r - S (length r - 2))%nat with 1%nat by lia.
        replace (length r - S (length r - 7))%nat with 6%nat by lia.
        replace (length r - S (length r - 15))%nat with 14%nat by lia.
        replace (length r - S (length r - 16))%nat with 15%nat by lia.
        rewrite sigma1_small1, sigma0_small0 by now apply nth_good64. reflexivity.
      * rewrite !app_nth1 by (rewrite rev_length; lia). apply Hk. rewrite rev_length. lia.
    + exists (l ++ [x]). rewrite E, <- app_assoc. split; [reflexivity|]. split; [rewrite app_length; cbn; lia|].
      rewrite <- E. auto.
Qed.
Lemma words64_length n b : length (words64 n b) = n.
Proof. revert b. induction n; intros b; cbn; congruence. Qed.
Lemma words64_good n b : (8 * n <= length b)%nat -> good64 (words64 n b).
Proof.
  revert b. induction n as [|n IH]; intros b H; cbn [words64]; constructor.
  - exact (be_value_firstn_lt 8 b ltac:(lia)).
  - apply IH. rewrite skipn_length. lia.
Qed.
Lemma words64_nth n : forall b t, (t < n)%nat -> nth t (words64 n b) 0 = be_value (firstn 8 (skipn (8 * t) b)).
Proof.
  induction n as [|n IH]; intros b t H; [lia|]. destruct t as [|t]; cbn [words64 nth]; [reflexivity|].
  rewrite IH by lia. rewrite skipn_skipn'. do 3 f_equal. lia.
Qed.
Lemma schedule512_is_schedule b : length b = 128%nat ->
  length (schedule512 b) = 80%nat /\ good64 (schedule512 b) /\ is_schedule512 b (fun t => nth t (schedule512 b) 0).
Proof.
  intros Hb. unfold schedule512.
  destruct (extend_linked64 64 (rev (words64 16 b))) as (l & E & L & G & K).
  - rewrite rev_length, words64_length. lia.
  - apply Forall_rev, words64_good. lia.
  - intros t Ht. rewrite rev_involutive, words64_length in Ht. lia.
  - assert (Len : length (rev (extend512 64 (rev (words64 16 b)))) = 80%nat).
    { rewrite E, rev_length, app_length, rev_length, words64_length, L. reflexivity. }
    split; [exact Len|]. split; [now apply Forall_rev|]. split.
    + intros t Ht. rewrite E, rev_app_distr, rev_involutive, app_nth1 by (rewrite words64_length; lia).
      rewrite words64_nth, u64_at_value by lia. reflexivity.
    + intros t Ht. apply K. lia.
Qed.

(** ** Rounds *)
Definition of_hash512 (h : hash512) : eight := (h_a h, h_b h, h_c h, h_d h, h_e h, h_f h, h_g h, h_h h).
Definition good_hash512 (h : hash512) : Prop :=
  h_a h < 2 ^ 64 /\ h_b h < 2 ^ 64 /\ h_c h < 2 ^ 64 /\ h_d h < 2 ^ 64 /\
  h_e h < 2 ^ 64 /\ h_f h < 2 ^ 64 /\ h_g h < 2 ^ 64 /\ h_h h < 2 ^ 64.
Lemma rounds512_app w1 : forall w2 s, rounds512 (w1 ++ w2) s = rounds512 w2 (rounds512 w1 s).
Proof. induction w1 as [|[k w] w1 IH]; intros w2 s; cbn [app rounds512]; [reflexivity|]. apply IH. Qed.
Lemma rounds512_good w : forall s, good_hash512 s -> good_hash512 (rounds512 w s).
Proof.
  induction w as [|[k x] w IH]; intros s H; cbn [rounds512]; [exact H|]. apply IH.
  destruct H as (A & B & C & D & E & F & G & H). unfold good_hash512. cbn [h_a h_b h_c h_d h_e h_f h_g h_h].
  repeat split; try assumption; apply add64_lt.
Qed.
Lemma firstn_S64 {A} (d : A) k l : (k < length l)%nat -> firstn (S k) l = firstn k l ++ [nth k l d].
Proof.
  revert l. induction k as [|k IH]; intros [|x l] H; cbn in H; try lia; [reflexivity|].
  cbn [firstn nth app]. f_equal. apply IH. lia.
Qed.
Lemma block512_is_compression s b : good_hash512 s -> length b = 128%nat ->
  is_compression512 (of_hash512 s) b (of_hash512 (block512 s b)) /\ good_hash512 (block512 s b).
Proof.
  intros Hs Hb. destruct (schedule512_is_schedule b Hb) as (L & G & S).
  assert (LK : length K512 = 80%nat) by reflexivity.
  assert (LC : length (combine K512 (schedule512 b)) = 80%nat) by (rewrite combine_length, LK, L; reflexivity).
  split.
  - exists (fun t => nth t (schedule512 b) 0), (fun t => of_hash512 (rounds512 (firstn t (combine K512 (schedule512 b))) s)).
    split; [exact S|]. split; [reflexivity|]. split.
    + intros t Ht. rewrite (firstn_S64 (0, 0)) by lia. rewrite rounds512_app.
      rewrite combine_nth by (rewrite LK, L; reflexivity).
      pose proof (rounds512_good (firstn t (combine K512 (schedule512 b))) s Hs) as (A & B & C & D & E & F & H & J).
      set (r := rounds512 (firstn t (combine K512 (schedule512 b))) s) in *. unfold of_hash512.
      cbn [rounds512 h_a h_b h_c h_d h_e h_f h_g h_h].
      exists (Ch (h_e r) (h_f r) (h_g r)), (Maj (h_a r) (h_b r) (h_c r)), (nth t K512 0).
      split; [now apply Ch_is_ch|]. split; [now apply Maj_is_maj|]. split; [now apply K512_constant|].
      cbv zeta. rewrite Sigma0_big0, Sigma1_big1 by assumption. reflexivity.
    + rewrite firstn_all2 by lia. unfold block512. cbv zeta. generalize (rounds512 (combine K512 (schedule512 b)) s).
      intros r. unfold of_hash512. cbn [h_a h_b h_c h_d h_e h_f h_g h_h]. reflexivity.
  - unfold block512, good_hash512. cbv zeta. cbn [h_a h_b h_c h_d h_e h_f h_g h_h]. repeat split; apply add64_lt.
Qed.
Lemma blocks512_is_hash n : forall b s, good_hash512 s -> length b = (128 * n)%nat ->
  is_hash512 b (of_hash512 s) (of_hash512 (blocks512 n b s)).
Proof.
  induction n as [|n IH]; intros b s Hs Hb; cbn [blocks512].
  - destruct b; [constructor|cbn in Hb; lia].
  - rewrite <- (firstn_skipn 128 b) at 1.
    destruct (block512_is_compression s (firstn 128 b) Hs) as [C G]; [rewrite firstn_length; lia|].
    econstructor; [rewrite firstn_length; lia|exact C|]. apply IH; [exact G|]. rewrite skipn_length. lia.
Qed.
Lemma pad512_is_padded m : is_padded512 m (pad512 m) /\ (length (pad512 m) mod 128 = 0)%nat.
Proof.
  unfold pad512, is_padded512. set (l := length m). set (z := ((239 - l mod 128) mod 128)%nat).
  assert (Hl : (l mod 128 < 128)%nat) by (apply Nat.mod_upper_bound; lia).
  assert (Hz : (z < 128)%nat) by (apply Nat.mod_upper_bound; lia).
  assert (M : ((l + 1 + z) mod 128 = 112)%nat).
  { unfold z. rewrite Nat.add_mod_idemp_r by lia.
    rewrite (Nat.div_mod l 128) at 1 by lia.
    replace (128 * (l / 128) + l mod 128 + 1 + (239 - l mod 128))%nat with (112 + (l / 128 + 1) * 128)%nat by lia.
    rewrite Nat.mod_add by lia. reflexivity. }
  split.
  - exists z. split; [exact Hz|]. split.
    + now rewrite be16.
    + rewrite !app_length, repeat_length. cbn [length]. fold l. now rewrite Nat.add_assoc.
  - rewrite !app_length, repeat_length, be_length. cbn [length]. fold l.
    replace (l + (1 + (z + 16)))%nat with (l + 1 + z + 16)%nat by lia.
    rewrite Nat.add_mod, M by lia. reflexivity.
Qed.

Lemma initial_value : of_hash512 hash512_init = initial512.
Proof. vm_compute. reflexivity. Qed.

Theorem sha512_is_sha512 m : len m < 2 ^ 125 -> is_sha512 m (sha512 m).
Proof.
  intros Hm. split; [exact Hm|].
  destruct (pad512_is_padded m) as [P L].
  unfold sha512. set (h := blocks512 _ _ _).
  exists (pad512 m), (h_a h), (h_b h), (h_c h), (h_d h), (h_e h), (h_f h), (h_g h), (h_h h).
  split; [exact P|]. split; [|now rewrite !be8].
  assert (H : is_hash512 (pad512 m) (of_hash512 hash512_init) (of_hash512 h)).
  - apply blocks512_is_hash.
    + unfold good_hash512, hash512_init. cbn [h_a h_b h_c h_d h_e h_f h_g h_h]. repeat split.
    + apply Nat.div_exact in L; [exact L|lia].
  - rewrite initial_value in H. exact H.
Qed.

(** ** The description determines the digest *)
Lemma is_ch_unique x y z r r' : is_ch x y z r -> is_ch x y z r' -> r = r'.
Proof.
  intros [L B] [L' B']. apply N.bits_inj. intros i. destruct (N.lt_ge_cases i 64) as [H|H].
  - now rewrite B, B'.
  - now rewrite !testbit_high64.
Qed.
Lemma is_maj_unique x y z r r' : is_maj x y z r -> is_maj x y z r' -> r = r'.
Proof.
  intros [L B] [L' B']. apply N.bits_inj. intros i. destruct (N.lt_ge_cases i 64) as [H|H].
  - now rewrite B, B'.
  - now rewrite !testbit_high64.
Qed.
Lemma is_schedule512_unique b W W' : is_schedule512 b W -> is_schedule512 b W' -> forall t, (t < 80)%nat -> W t = W' t.
Proof.
  intros [A B] [A' B'] t. induction t as [t IH] using (well_founded_induction Wf_nat.lt_wf). intros Ht.
  destruct (Nat.lt_ge_cases t 16) as [H|H].
  - now rewrite A, A'.
  - rewrite B, B' by lia. now rewrite !IH by lia.
Qed.
Lemma is_compression512_unique h b h1 h2 : is_compression512 h b h1 -> is_compression512 h b h2 -> h1 = h2.
Proof.
  intros (W & st & S & I & N & ->) (W' & st' & S' & I' & N' & ->).
  assert (E : forall t, (t <= 80)%nat -> st t = st' t).
  { induction t as [|t IH]; intros Ht; [congruence|].
    specialize (IH ltac:(lia)). specialize (N t ltac:(lia)). specialize (N' t ltac:(lia)). rewrite <- IH in N'.
    destruct (st t) as [[[[[[[a b'] c] d] e] f] g] h0].
    destruct N as (ch & maj & k & C & M & K & ->). destruct N' as (ch' & maj' & k' & C' & M' & K' & ->).
    rewrite (is_ch_unique _ _ _ _ _ C C'), (is_maj_unique _ _ _ _ _ M M'), (constant512_unique _ _ _ K K').
    rewrite (is_schedule512_unique b W W' S S' t) by lia. reflexivity. }
  now rewrite E.
Qed.
Lemma is_hash512_unique p h h1 h2 : is_hash512 p h h1 -> is_hash512 p h h2 -> h1 = h2.
Proof.
  intros H. revert h2. induction H as [h|b r h h' h'' L C H IH]; intros h2 H2.
  - inversion H2 as [|b r h' h'' h3 L C]; subst; [reflexivity|]. destruct b; [cbn in L; lia|discriminate].
  - inversion H2 as [e E|b' r' g g' g'' L' C' H' E]; subst.
    + destruct b; [cbn in L; lia|discriminate].
    + assert (b' = b /\ r' = r) as [-> ->].
      { apply (f_equal (firstn 128)) in E as E1. apply (f_equal (skipn 128)) in E as E2.
        rewrite !firstn_app_exact in E1 by assumption. rewrite !skipn_app_exact in E2 by assumption. auto. }
      apply IH. now rewrite (is_compression512_unique _ _ _ _ C C').
Qed.
Lemma is_padded512_unique m p p' : is_padded512 m p -> is_padded512 m p' -> p = p'.
Proof.
  intros (z & Z & -> & M) (z' & Z' & -> & M').
  rewrite !app_length, repeat_length in M, M'. cbn [length] in *.
  assert (z = z'); [|now subst].
  rewrite (Nat.add_assoc _ 1) in M, M'. set (k := (length m + 1)%nat) in *.
  pose proof (Nat.div_mod (k + z) 128). pose proof (Nat.div_mod (k + z') 128). lia.
Qed.
Theorem is_sha512_unique m d d' : is_sha512 m d -> is_sha512 m d' -> d = d'.
Proof.
  intros (_ & p & a & b & c & x & e & f & g & h & P & H & ->) (_ & p' & a' & b' & c' & x' & e' & f' & g' & h' & P' & H' & ->).
  rewrite (is_padded512_unique _ _ _ P P') in H. apply (is_hash512_unique _ _ _ _ H) in H'. congruence.
Qed.
