(** * Sha1Facts: Sha1.v computes what Sha1Spec.v describes *)
From Coq Require Import Strings.String.
From Verif Require Import Base Spec SerdeFacts CodecFacts Sha1 Sha1Spec.
Open Scope N_scope.

Lemma lor_add a b : N.land a b = 0 -> N.lor a b = a + b.
Proof. intros H. now rewrite N.add_nocarry_lxor, N.lxor_lor. Qed.
Lemma testbit_high x i : x < 2 ^ 32 -> 32 <= i -> N.testbit x i = false.
Proof.
  intros H Hi. destruct (N.eq_dec x 0) as [->|N0]; [apply N.bits_0|].
  apply N.bits_above_log2. apply N.log2_lt_pow2 in H; lia.
Qed.
Lemma below_of_bits x : (forall i, 32 <= i -> N.testbit x i = false) -> x < 2 ^ 32.
Proof.
  intros H. destruct (N.eq_dec x 0) as [->|N0]; [reflexivity|].
  apply N.log2_lt_pow2; [lia|]. destruct (N.lt_ge_cases (N.log2 x) 32) as [L|L]; [exact L|].
  specialize (H _ L). rewrite N.bit_log2 in H by assumption. discriminate.
Qed.
Lemma mod_pow_bits a i : i < 32 -> N.testbit (a mod 2 ^ 32) i = N.testbit a i.
Proof. intros H. now apply N.mod_pow2_bits_low. Qed.

Lemma rotl_rot k x : k <= 32 -> x < 2 ^ 32 -> rotl k x = rot k x.
Proof.
  intros Hk Hx. unfold rotl, rot. change w32 with (2 ^ 32).
  rewrite lor_add.
  - now rewrite N.shiftl_mul_pow2, N.shiftr_div_pow2.
  - apply N.bits_inj. intros i. rewrite N.bits_0, N.land_spec.
    destruct (N.lt_ge_cases i k) as [H|H].
    + rewrite mod_pow_bits by lia. now rewrite N.shiftl_spec_low.
    + rewrite N.shiftr_spec', (testbit_high x) by (assumption || lia). apply andb_false_r.
Qed.
Lemma rot_lt k x : k <= 32 -> x < 2 ^ 32 -> rotl k x < 2 ^ 32.
Proof.
  intros Hk Hx. apply below_of_bits. intros i Hi. unfold rotl. change w32 with (2 ^ 32).
  rewrite N.lor_spec, N.mod_pow2_bits_high, N.shiftr_spec', (testbit_high x) by (assumption || lia). reflexivity.
Qed.
Lemma lxor_lt x y : x < 2 ^ 32 -> y < 2 ^ 32 -> N.lxor x y < 2 ^ 32.
Proof.
  intros Hx Hy. apply below_of_bits. intros i Hi. now rewrite N.lxor_spec, !testbit_high.
Qed.

Lemma f_t_is_f t x y z : x < 2 ^ 32 -> y < 2 ^ 32 -> z < 2 ^ 32 -> is_f t x y z (f_t t x y z).
Proof.
  intros Hx Hy Hz. unfold is_f, f_t, f_bit.
  assert (Hn : forall i, i < 32 -> N.testbit 4294967295 i = true).
  { intros i Hi. change 4294967295 with (N.ones 32). now apply N.ones_spec_low. }
  destruct (Nat.ltb_spec t 20).
  - split.
    + apply below_of_bits. intros i Hi. rewrite N.lxor_spec, !N.land_spec, (testbit_high x), (testbit_high z) by assumption.
      cbn. now rewrite andb_false_r.
    + intros i Hi. unfold not32. rewrite N.lxor_spec, !N.land_spec, N.lxor_spec, Hn by assumption.
      now destruct (N.testbit x i), (N.testbit y i), (N.testbit z i).
  - destruct (Nat.ltb_spec t 40).
    + destruct (Nat.leb_spec 40 t); [lia|]. cbn [andb]. split.
      * apply lxor_lt; [now apply lxor_lt|assumption].
      * intros i _. rewrite !N.lxor_spec. now rewrite xorb_assoc.
    + destruct (Nat.leb_spec 40 t); [|lia]. cbn [andb]. destruct (Nat.ltb_spec t 60).
      * split.
        -- apply below_of_bits. intros i Hi.
           rewrite !N.lxor_spec, !N.land_spec, (testbit_high x), (testbit_high y) by assumption. reflexivity.
        -- intros i _. rewrite !N.lxor_spec, !N.land_spec.
           now destruct (N.testbit x i), (N.testbit y i), (N.testbit z i).
      * split.
        -- apply lxor_lt; [now apply lxor_lt|assumption].
        -- intros i _. rewrite !N.lxor_spec. now rewrite xorb_assoc.
Qed.

Lemma k_t_constant t : k_t t = constant t.
Proof. unfold k_t, constant. destruct (t <? 20)%nat; [reflexivity|]. destruct (t <? 40)%nat; [reflexivity|]. now destruct (t <? 60)%nat. Qed.

(** ** Schedule *)
Definition good (l : list N) : Prop := Forall (fun x => x < 2 ^ 32) l.
Definition linked (l : list N) : Prop :=
  forall t, (16 <= t < length l)%nat ->
    nth t l 0 = rot 1 (N.lxor (N.lxor (N.lxor (nth (t - 3) l 0) (nth (t - 8) l 0)) (nth (t - 14) l 0)) (nth (t - 16) l 0)).
Lemma nth_good i l : good l -> nth i l 0 < 2 ^ 32.
Proof.
  intros H. destruct (Nat.lt_ge_cases i (length l)) as [L|L].
  - unfold good in H. rewrite Forall_forall in H. apply H. now apply nth_In.
  - rewrite nth_overflow by assumption. reflexivity.
Qed.
Lemma extend_linked n : forall r, (16 <= length r)%nat -> good r -> linked (rev r) ->
  exists l, extend n r = l ++ r /\ length l = n /\ good (extend n r) /\ linked (rev (extend n r)).
Proof.
  induction n as [|n IH]; intros r Hl Hg Hk; cbn [extend].
  - exists []. auto.
  - set (x := rotl 1 _).
    assert (Hx : x < 2 ^ 32).
    { unfold x. apply rot_lt; [lia|]. repeat apply lxor_lt; now apply nth_good. }
    destruct (IH (x :: r)) as (l & E & L & G & K).
    + cbn. lia.
    + now constructor.
    + intros t Ht. cbn [rev] in *. rewrite app_length, rev_length in Ht. cbn [length] in Ht.
      destruct (Nat.eq_dec t (length r)) as [->|Ne].
      * rewrite app_nth2, rev_length, Nat.sub_diag by (rewrite rev_length; lia). cbn [nth].
        rewrite !app_nth1 by (rewrite rev_length; lia). rewrite !rev_nth by lia.
        unfold x. rewrite rotl_rot; [|lia|repeat apply lxor_lt; now apply nth_good].
        replace (length r - S (length r - 3))%nat with 2%nat by lia.
        replace (length r - S (length r - 8))%nat with 7%nat by lia.
        replace (length r - S (length r - 14))%nat with 13%nat by lia.
        replace (length r - S (length r - 16))%nat with 15%nat by lia.
        now rewrite !N.lxor_assoc.
      * rewrite !app_nth1 by (rewrite rev_length; lia). apply Hk. rewrite rev_length. lia.
    + exists (l ++ [x]). rewrite E, <- app_assoc. split; [reflexivity|]. split; [rewrite app_length; cbn; lia|].
      rewrite <- E. auto.
Qed.
Lemma words_length n b : length (words n b) = n.
Proof. revert b. induction n; intros b; cbn; congruence. Qed.
Lemma words_good n b : (4 * n <= length b)%nat -> good (words n b).
Proof.
  revert b. induction n as [|n IH]; intros b H; cbn [words]; constructor.
  - exact (be_value_firstn_lt 4 b ltac:(lia)).
  - apply IH. rewrite skipn_length. lia.
Qed.
Lemma words_nth n : forall b t, (t < n)%nat -> nth t (words n b) 0 = be_value (firstn 4 (skipn (4 * t) b)).
Proof.
  induction n as [|n IH]; intros b t H; [lia|]. destruct t as [|t]; cbn [words nth]; [reflexivity|].
  rewrite IH by lia. rewrite skipn_skipn'. do 3 f_equal. lia.
Qed.
Lemma u32_at_be b i : (i + 4 <= length b)%nat -> u32_at b i = be_value (firstn 4 (skipn i b)).
Proof.
  intros H. unfold u32_at, n_at, byte_at.
  rewrite <- (Nat.add_0_r i) at 1. rewrite <- !nth_skipn.
  assert (L : (4 <= length (skipn i b))%nat) by (rewrite skipn_length; lia).
  destruct (skipn i b) as [|b0 [|b1 [|b2 [|b3 r]]]]; cbn in L; try lia.
  cbn [nth firstn]. unfold be_value. cbn [fold_left]. lia.
Qed.
Lemma schedule_is_schedule b : length b = 64%nat ->
  length (schedule b) = 80%nat /\ good (schedule b) /\ is_schedule b (fun t => nth t (schedule b) 0).
Proof.
  intros Hb. unfold schedule.
  destruct (extend_linked 64 (rev (words 16 b))) as (l & E & L & G & K).
  - rewrite rev_length, words_length. lia.
  - apply Forall_rev, words_good. lia.
  - intros t Ht. rewrite rev_involutive, words_length in Ht. lia.
  - assert (Len : length (rev (extend 64 (rev (words 16 b)))) = 80%nat).
    { rewrite E, rev_length, app_length, rev_length, words_length, L. reflexivity. }
    split; [exact Len|]. split; [now apply Forall_rev|]. split.
    + intros t Ht. rewrite E, rev_app_distr, rev_involutive, app_nth1 by (rewrite words_length; lia).
      rewrite words_nth, u32_at_be by lia. reflexivity.
    + intros t Ht. apply K. lia.
Qed.

(** ** Rounds *)
Definition of_hash (h : hash) : five := (ha h, hb h, hc h, hd h, he h).
Definition good_hash (h : hash) : Prop :=
  ha h < 2 ^ 32 /\ hb h < 2 ^ 32 /\ hc h < 2 ^ 32 /\ hd h < 2 ^ 32 /\ he h < 2 ^ 32.
Lemma rounds_app w1 : forall t w2 s, rounds t (w1 ++ w2) s = rounds (t + length w1) w2 (rounds t w1 s).
Proof.
  induction w1 as [|w w1 IH]; intros t w2 s; cbn [app rounds length].
  - now rewrite Nat.add_0_r.
  - rewrite IH. now replace (S t + length w1)%nat with (t + S (length w1))%nat by lia.
Qed.
Lemma add32_lt a b : add32 a b < 2 ^ 32.
Proof. unfold add32. now apply N.mod_lt. Qed.
Lemma rounds_good w : forall t s, good_hash s -> good_hash (rounds t w s).
Proof.
  induction w as [|x w IH]; intros t s H; cbn [rounds]; [exact H|]. apply IH.
  destruct H as (A & B & C & D & E). repeat split; cbn [ha hb hc hd he]; auto.
  - apply add32_lt.
  - apply rot_lt; [lia|assumption].
Qed.
Lemma firstn_S {A} (d : A) k l : (k < length l)%nat -> firstn (S k) l = firstn k l ++ [nth k l d].
Proof.
  revert l. induction k as [|k IH]; intros [|x l] H; cbn in H; try lia; [reflexivity|].
  cbn [firstn nth app]. f_equal. apply IH. lia.
Qed.
Lemma block_is_compression s b : good_hash s -> length b = 64%nat ->
  is_compression (of_hash s) b (of_hash (block s b)) /\ good_hash (block s b).
Proof.
  intros Hs Hb. destruct (schedule_is_schedule b Hb) as (L & G & S).
  split.
  - exists (fun t => nth t (schedule b) 0), (fun t => of_hash (rounds 0 (firstn t (schedule b)) s)).
    split; [exact S|]. split; [reflexivity|]. split.
    + intros t Ht. rewrite (firstn_S 0) by lia. rewrite rounds_app. cbn [Nat.add].
      rewrite firstn_length, L, Nat.min_l by lia.
      pose proof (rounds_good (firstn t (schedule b)) 0 s Hs) as (A & B & C & D & E).
      set (r := rounds 0 (firstn t (schedule b)) s) in *. unfold of_hash. cbn [rounds ha hb hc hd he].
      exists (f_t t (hb r) (hc r) (hd r)). split; [now apply f_t_is_f|].
      rewrite !rotl_rot by (lia || assumption). rewrite k_t_constant. reflexivity.
    + rewrite firstn_all2 by lia. unfold block. cbv zeta. generalize (rounds 0 (schedule b) s). intros r. unfold of_hash. cbn [ha hb hc hd he]. reflexivity.
  - repeat split; apply add32_lt.
Qed.
Lemma blocks_is_hash n : forall b s, good_hash s -> length b = (64 * n)%nat ->
  is_hash b (of_hash s) (of_hash (blocks n b s)).
Proof.
  induction n as [|n IH]; intros b s Hs Hb; cbn [blocks].
  - destruct b; [constructor|cbn in Hb; lia].
  - rewrite <- (firstn_skipn 64 b) at 1.
    destruct (block_is_compression s (firstn 64 b) Hs) as [C G]; [rewrite firstn_length; lia|].
    econstructor; [rewrite firstn_length; lia|exact C|]. apply IH; [exact G|]. rewrite skipn_length. lia.
Qed.
Lemma pad_is_padded m : is_padded m (pad m) /\ (length (pad m) mod 64 = 0)%nat.
Proof.
  unfold pad, is_padded. set (l := length m). set (z := ((119 - l mod 64) mod 64)%nat).
  assert (Hl : (l mod 64 < 64)%nat) by (apply Nat.mod_upper_bound; lia).
  assert (Hz : (z < 64)%nat) by (apply Nat.mod_upper_bound; lia).
  assert (M : ((l + 1 + z) mod 64 = 56)%nat).
  { unfold z. rewrite Nat.add_mod_idemp_r by lia.
    rewrite (Nat.div_mod l 64) at 1 by lia.
    replace (64 * (l / 64) + l mod 64 + 1 + (119 - l mod 64))%nat with (56 + (l / 64 + 1) * 64)%nat by lia.
    rewrite Nat.mod_add by lia. reflexivity. }
  split.
  - exists z. split; [exact Hz|]. split.
    + now rewrite be8.
    + rewrite !app_length, repeat_length. cbn [length]. fold l. now rewrite Nat.add_assoc.
  - rewrite !app_length, repeat_length, be_length. cbn [length]. fold l.
    replace (l + (1 + (z + 8)))%nat with (l + 1 + z + 8)%nat by lia.
    rewrite Nat.add_mod, M by lia. reflexivity.
Qed.

Theorem sha1_is_sha1 m : len m < 2 ^ 61 -> is_sha1 m (sha1 m).
Proof.
  intros Hm. split; [exact Hm|].
  destruct (pad_is_padded m) as [P L].
  unfold sha1. set (h := blocks _ _ _).
  exists (pad m), (ha h), (hb h), (hc h), (hd h), (he h).
  split; [exact P|]. split; [|now rewrite !be4].
  assert (H : is_hash (pad m) (of_hash hash_init) (of_hash h)); [|exact H].
  apply blocks_is_hash.
  - repeat split.
  - apply Nat.div_exact in L; [exact L|lia].
Qed.

(** ** The description determines the digest *)
Lemma is_f_unique t x y z r r' : is_f t x y z r -> is_f t x y z r' -> r = r'.
Proof.
  intros [L B] [L' B']. apply N.bits_inj. intros i. destruct (N.lt_ge_cases i 32) as [H|H].
  - now rewrite B, B'.
  - now rewrite !testbit_high.
Qed.
Lemma is_schedule_unique b W W' : is_schedule b W -> is_schedule b W' -> forall t, (t < 80)%nat -> W t = W' t.
Proof.
  intros [A B] [A' B'] t. induction t as [t IH] using (well_founded_induction Wf_nat.lt_wf). intros Ht.
  destruct (Nat.lt_ge_cases t 16) as [H|H].
  - now rewrite A, A'.
  - rewrite B, B' by lia. now rewrite !IH by lia.
Qed.
Lemma is_compression_unique h b h1 h2 : is_compression h b h1 -> is_compression h b h2 -> h1 = h2.
Proof.
  intros (W & st & S & I & N & ->) (W' & st' & S' & I' & N' & ->).
  assert (E : forall t, (t <= 80)%nat -> st t = st' t).
  { induction t as [|t IH]; intros Ht; [congruence|].
    specialize (IH ltac:(lia)). specialize (N t ltac:(lia)). specialize (N' t ltac:(lia)). rewrite <- IH in N'.
    destruct (st t) as [[[[a b'] c] d] e]. destruct N as (f & F & ->). destruct N' as (f' & F' & ->).
    rewrite (is_f_unique _ _ _ _ _ _ F F'). rewrite (is_schedule_unique b W W' S S' t) by lia. reflexivity. }
  now rewrite E.
Qed.
Lemma is_hash_unique p h h1 h2 : is_hash p h h1 -> is_hash p h h2 -> h1 = h2.
Proof.
  intros H. revert h2. induction H as [h|b r h h' h'' L C H IH]; intros h2 H2.
  - inversion H2 as [|b r h' h'' h3 L C]; subst; [reflexivity|]. destruct b; [cbn in L; lia|discriminate].
  - inversion H2 as [e E|b' r' g g' g'' L' C' H' E]; subst.
    + destruct b; [cbn in L; lia|discriminate].
    + assert (b' = b /\ r' = r) as [-> ->].
      { apply (f_equal (firstn 64)) in E as E1. apply (f_equal (skipn 64)) in E as E2.
        rewrite !firstn_app_exact in E1 by assumption. rewrite !skipn_app_exact in E2 by assumption. auto. }
      apply IH. now rewrite (is_compression_unique _ _ _ _ C C').
Qed.
Lemma is_padded_unique m p p' : is_padded m p -> is_padded m p' -> p = p'.
Proof.
  intros (z & Z & -> & M) (z' & Z' & -> & M').
  rewrite !app_length, repeat_length in M, M'. cbn [length] in *.
  assert (z = z'); [|now subst].
  rewrite (Nat.add_assoc _ 1) in M, M'. set (k := (length m + 1)%nat) in *.
  pose proof (Nat.div_mod (k + z) 64). pose proof (Nat.div_mod (k + z') 64). lia.
Qed.
Theorem is_sha1_unique m d d' : is_sha1 m d -> is_sha1 m d' -> d = d'.
Proof.
  intros (_ & p & a & b & c & x & e & P & H & ->) (_ & p' & a' & b' & c' & x' & e' & P' & H' & ->).
  rewrite (is_padded_unique _ _ _ P P') in H. apply (is_hash_unique _ _ _ _ H) in H'. congruence.
Qed.
