(** * EdPrime: 2^255 - 19 is prime (Fermat's little theorem and Pocklington's criterion) *)
From Coq Require Import Bool ZArith Znumtheory Zpow_facts List Lia Permutation.
Import ListNotations.
Open Scope Z_scope.

(** ** Products *)
Definition prod (l : list Z) : Z := fold_right Z.mul 1 l.

Lemma prod_perm a b : Permutation a b -> prod a = prod b.
Proof.
  induction 1 as [|x l l' H IH|x y l|l l' l'' H1 IH1 H2 IH2]; cbn; [reflexivity| |ring|congruence].
  fold (prod l). fold (prod l'). now rewrite IH.
Qed.

Lemma prod_map_mod p (f : Z -> Z) (l : list Z) : 0 < p -> prod (map (fun x => f x mod p) l) mod p = prod (map f l) mod p.
Proof.
  intros P. induction l as [|x l IH]; [reflexivity|]. cbn [map prod fold_right].
  fold (prod (map (fun x => f x mod p) l)). fold (prod (map f l)).
  rewrite Z.mul_mod, IH, Z.mod_mod by lia. rewrite <- Z.mul_mod by lia. reflexivity.
Qed.

Lemma prod_map_scale a l : prod (map (fun x => a * x) l) = a ^ Z.of_nat (length l) * prod l.
Proof.
  induction l as [|x l IH]; [reflexivity|]. cbn [map prod fold_right length].
  fold (prod (map (fun x => a * x) l)). fold (prod l). rewrite IH, Nat2Z.inj_succ, Z.pow_succ_r by lia. ring.
Qed.

Lemma prod_prime p l : prime p -> Forall (fun x => ~ (p | x)) l -> ~ (p | prod l).
Proof.
  intros P. induction 1 as [|x l H _ IH]; cbn.
  - intros D. apply Z.divide_1_r_nonneg in D; destruct P; lia.
  - intros D. apply prime_mult in D as [D|D]; auto.
Qed.

(** ** Fermat *)
Definition residues (p : Z) : list Z := map Z.of_nat (seq 1 (Z.to_nat (p - 1))).

Lemma in_residues p x : 1 < p -> In x (residues p) <-> 0 < x < p.
Proof.
  intros P. unfold residues. rewrite in_map_iff. setoid_rewrite in_seq. split.
  - intros (n & <- & H). lia.
  - intros H. exists (Z.to_nat x). lia.
Qed.

Lemma fermat p a : prime p -> ~ (p | a) -> a ^ (p - 1) mod p = 1.
Proof.
  intros P A. assert (1 < p) as H1 by (destruct P; lia).
  set (l := residues p).
  assert (Perm : Permutation (map (fun x => a * x mod p) l) l).
  { apply NoDup_Permutation_bis.
    - unfold l, residues. rewrite map_map. 
      assert (G : forall k s, (0 < s)%nat -> Z.of_nat s + Z.of_nat k <= p ->
                  NoDup (map (fun x => a * Z.of_nat x mod p) (seq s k))).
      { induction k as [|k IH]; intros s Hs Hk; cbn; [constructor|]. constructor; [|apply IH; lia].
        intros D. apply in_map_iff in D as (y & E & Hy). apply in_seq in Hy.
        assert ((p | a * (Z.of_nat y - Z.of_nat s))) as D.
        { replace (a * (Z.of_nat y - Z.of_nat s)) with (a * Z.of_nat y - a * Z.of_nat s) by ring.
          apply Z.mod_divide; [lia|]. rewrite Zminus_mod, E, Z.sub_diag. reflexivity. }
        apply prime_mult in D as [D|D]; [now apply A| |exact P].
        apply Z.divide_pos_le in D; lia. }
      apply G; lia.
    - now rewrite map_length.
    - intros y Hy. apply in_map_iff in Hy as (x & <- & Hx). apply in_residues in Hx; [|lia]. apply in_residues; [lia|].
      pose proof (Z.mod_pos_bound (a * x) p ltac:(lia)).
      assert (a * x mod p <> 0); [|lia]. intros E. apply Z.mod_divide in E; [|lia].
      apply prime_mult in E as [E|E]; [now apply A| |exact P]. apply Z.divide_pos_le in E; lia. }
  pose proof (prod_map_mod p (fun x => a * x) l ltac:(lia)) as E.
  cbv beta in E. rewrite (prod_perm _ _ Perm) in E. rewrite prod_map_scale in E.
  assert (L : Z.of_nat (length l) = p - 1).
  { unfold l, residues. rewrite map_length, seq_length. lia. }
  rewrite L in E.
  assert (D : (p | prod l * (a ^ (p - 1) - 1))).
  { replace (prod l * (a ^ (p - 1) - 1)) with (a ^ (p - 1) * prod l - prod l) by ring.
    apply Z.mod_divide; [lia|]. rewrite Zminus_mod, <- E, Z.sub_diag. reflexivity. }
  apply prime_mult in D as [D|D]; [| |exact P].
  - exfalso. revert D. apply prod_prime; [exact P|]. apply Forall_forall. intros x Hx.
    apply in_residues in Hx; [|lia]. intros D. apply Z.divide_pos_le in D; lia.
  - apply Zdivide_mod in D. rewrite Zminus_mod, (Z.mod_small 1) in D by lia.
    pose proof (Z.mod_pos_bound (a ^ (p - 1)) p ltac:(lia)).
    destruct (Z.eq_dec (a ^ (p - 1) mod p) 0) as [E0|N0].
    + rewrite E0 in D. replace (0 - 1) with (-1) in D by lia.
      rewrite <- (Z_mod_plus_full _ 1) in D. rewrite Z.mod_small in D; lia.
    + rewrite Z.mod_small in D; lia.
Qed.

(** ** Prime divisors *)
Lemma prime_divisor n : 1 < n -> exists q, prime q /\ (q | n).
Proof.
  intros H. assert (0 <= n) as H0 by lia. revert H. pattern n. apply Zlt_0_ind; [clear n H0|exact H0].
  intros n IH _ H. destruct (prime_dec n) as [P|P]; [exists n; split; [exact P|apply Z.divide_refl]|].
  apply not_prime_divide in P as (m & Hm & D); [|exact H].
  destruct (IH m ltac:(lia) ltac:(lia)) as (q & Q1 & Q2). exists q. split; [exact Q1|]. now transitivity m.
Qed.

(** ** Pocklington *)
Lemma pow_mod_base a k n : 0 < n -> 0 <= k -> (a mod n) ^ k mod n = a ^ k mod n.
Proof. intros. rewrite <- Zpower_mod by lia. reflexivity. Qed.

(** if a^x = 1 and a^y = 1 then a^gcd(x,y) = 1 *)
Lemma pow_gcd q a x y : 1 < q -> 0 < x -> 0 < y -> a ^ x mod q = 1 -> a ^ y mod q = 1 -> a ^ Z.gcd x y mod q = 1.
Proof.
  intros Q X Y EX EY.
  assert (M : forall b k, 0 <= k -> b mod q = 1 -> b ^ k mod q = 1).
  { intros b k K E. rewrite <- pow_mod_base by lia. rewrite E, Z.pow_1_l by lia. apply Z.mod_small. lia. }
  destruct (Z.gcd_bezout x y _ eq_refl) as (u & v & B).
  (* make one coefficient non-negative and the other non-positive *)
  set (t := Z.abs u + Z.abs v).
  set (g := Z.gcd x y) in *.
  assert (G : 0 < g) by (pose proof (Z.gcd_nonneg x y); destruct (Z.eq_dec g 0) as [E|]; [apply Z.gcd_eq_0_l in E; lia|unfold g in *; lia]).
  assert (E : (u + t * y) * x = g + (t * x - v) * y) by (rewrite <- B; ring).
  assert (N1 : 0 <= u + t * y) by (unfold t; nia).
  assert (N2 : 0 <= t * x - v) by (unfold t; nia).
  assert (P1 : a ^ ((u + t * y) * x) mod q = 1).
  { rewrite Z.mul_comm, Z.pow_mul_r by lia. now apply M. }
  rewrite E, Z.pow_add_r in P1 by nia.
  rewrite Z.mul_mod in P1 by lia.
  rewrite (Z.mul_comm (t * x - v) y), Z.pow_mul_r in P1 by lia. rewrite (M (a ^ y)) in P1 by (auto; lia).
  rewrite Z.mul_1_r, Z.mod_mod in P1 by lia. exact P1.
Qed.

Definition witness (n r a : Z) : Prop := a ^ (n - 1) mod n = 1 /\ Z.gcd (a ^ ((n - 1) / r) mod n - 1) n = 1.

Lemma pocklington_divides n r a q :
  1 < n -> prime r -> (r | n - 1) -> witness n r a -> prime q -> (q | n) -> (r | q - 1).
Proof.
  intros N R RD [W1 W2] Q QD. assert (1 < q) by (destruct Q; lia). assert (1 < r) by (destruct R; lia).
  assert (QN : forall b, b mod n mod q = b mod q) by (intros b; symmetry; apply Zmod_div_mod; auto; lia).
  assert (E1 : a ^ (n - 1) mod q = 1) by (rewrite <- QN, W1; apply Z.mod_small; lia).
  assert (E2 : a ^ ((n - 1) / r) mod q <> 1).
  { intros E. rewrite <- QN in E.
    assert (D : (q | a ^ ((n - 1) / r) mod n - 1)).
    { apply Z.mod_divide; [lia|]. rewrite Zminus_mod, E, (Z.mod_small 1) by lia. reflexivity. }
    pose proof (Z.gcd_greatest _ _ _ D QD) as G. rewrite W2 in G. apply Z.divide_1_r_nonneg in G; lia. }
  assert (A : ~ (q | a)).
  { intros D. apply Zdivide_mod in D. rewrite <- pow_mod_base, D, Z.pow_0_l, Z.mod_0_l in E1 by lia. lia. }
  pose proof (fermat q a Q A) as E3.
  pose proof (pow_gcd q a (n - 1) (q - 1) ltac:(lia) ltac:(lia) ltac:(lia) E1 E3) as E4.
  set (g := Z.gcd (n - 1) (q - 1)) in *.
  assert (G : 0 <= g) by apply Z.gcd_nonneg.
  destruct (Z.gcd_divide_l (n - 1) (q - 1)) as [t T]. fold g in T.
  destruct (Zdivide_dec r t) as [D|D].
  - (* r | t *) exfalso. destruct D as [u ->]. apply E2.
    replace ((n - 1) / r) with (g * u).
    2:{ rewrite T. replace (u * r * g) with (g * u * r) by ring. rewrite Z.div_mul; lia. }
    assert (0 <= u) by nia.
    rewrite Z.pow_mul_r by lia. rewrite <- pow_mod_base, E4, Z.pow_1_l by lia. apply Z.mod_small; lia.
  - transitivity g; [|apply Z.gcd_divide_r]. rewrite T in RD. apply prime_mult in RD as [?|?]; auto. contradiction.
Qed.

Lemma prod_divides l x : NoDup l -> Forall prime l -> Forall (fun r => (r | x)) l -> (prod l | x).
Proof.
  intros ND P D. revert x D. induction l as [|r l IH]; intros x D; [exists x; cbn; lia|].
  inversion ND as [|? ? N1 N2]; inversion P as [|? ? P1 P2]; inversion D as [|? ? D1 D2]; subst.
  cbn. fold (prod l). destruct D1 as [y ->]. rewrite (Z.mul_comm y). apply Z.mul_divide_mono_l. apply IH; auto.
  rewrite Forall_forall in *. intros s Hs. specialize (D2 s Hs). apply prime_mult in D2 as [D2|D2]; [exact D2| |now apply P2].
  exfalso. apply prime_div_prime in D2; [|now apply P2|exact P1]. subst. contradiction.
Qed.

Theorem pocklington n (l : list (Z * Z)) :
  1 < n -> NoDup (map fst l) -> n < prod (map fst l) ^ 2 ->
  Forall (fun ra => prime (fst ra) /\ (fst ra | n - 1) /\ witness n (fst ra) (snd ra)) l -> prime n.
Proof.
  intros N ND B W. set (F := prod (map fst l)) in *.
  assert (FP : 0 <= F).
  { unfold F. clear ND B. induction W as [|[r a] l (P & _) _ IH]; cbn in *; [lia|]. fold (prod (map fst l)) in *.
    destruct P. nia. }
  assert (Big : forall d, 1 < d -> (d | n) -> F < d).
  { intros d D DD. destruct (prime_divisor d D) as (q & Q & QD).
    assert (X : (F | q - 1)).
    { apply prod_divides; [exact ND| |].
      - apply Forall_map. eapply Forall_impl; [|exact W]. cbn. tauto.
      - apply Forall_map. eapply Forall_impl; [|exact W]. cbn. intros [r a] (P & RD & WW). cbn in *.
        apply (pocklington_divides n r a q); auto. now transitivity d. }
    assert (1 < q) by (destruct Q; lia). apply Z.divide_pos_le in X; [|lia]. apply Z.divide_pos_le in QD; lia. }
  destruct (prime_dec n) as [P|P]; [exact P|exfalso].
  apply not_prime_divide in P as (m & Hm & [k K]); [|exact N].
  assert (1 < k) by nia.
  pose proof (Big m ltac:(lia) ltac:(exists k; lia)). pose proof (Big k ltac:(lia) ltac:(exists m; lia)). nia.
Qed.

(** ** Computation *)
(** trial division *)
Definition no_divisor (n : Z) (k : nat) : bool := forallb (fun d => negb (n mod Z.of_nat d =? 0)) (seq 2 k).
Lemma small_prime n k : 1 < n -> n < (Z.of_nat k + 2) ^ 2 -> no_divisor n k = true -> prime n.
Proof.
  intros N B H. destruct (prime_dec n) as [P|P]; [exact P|exfalso].
  apply not_prime_divide in P as (m & Hm & [j J]); [|exact N].
  assert (exists d, 1 < d < Z.of_nat k + 2 /\ (d | n)) as (d & Hd & D).
  { destruct (Z_lt_le_dec m (Z.of_nat k + 2)).
    - exists m. split; [lia|]. now exists j.
    - exists j. split; [nia|]. exists m. lia. }
  unfold no_divisor in H. rewrite forallb_forall in H. specialize (H (Z.to_nat d)).
  rewrite in_seq in H. specialize (H ltac:(lia)). rewrite Z2Nat.id in H by lia.
  apply Z.mod_divide in D; [|lia]. rewrite D in H. discriminate.
Qed.

(** Barrett's reduction: [z mod n] without division, [mu] being 2^(2k)/n; right whatever [k] and [mu] are *)
Definition barrett (n k mu z : Z) : Z :=
  let q := Z.shiftr (Z.shiftr z (k - 1) * mu) (k + 1) in
  let down r := if r <? n then r else r - n in
  let r := down (down (down (down (z - q * n)))) in
  if (0 <=? r) && (r <? n) then r else z mod n.
Lemma barrett_ok n k mu z : 0 < n -> barrett n k mu z = z mod n.
Proof.
  intros N. unfold barrett. set (q := Z.shiftr _ _). cbv zeta.
  assert (D : forall r, (exists t, r = z - t * n) -> exists t, (if r <? n then r else r - n) = z - t * n).
  { intros r [t ->]. destruct (_ <? n); [now exists t|]. exists (t + 1). ring. }
  match goal with |- (if (0 <=? ?r) && _ then _ else _) = _ => assert (T : exists t, r = z - t * n) end.
  { do 4 apply D. now exists q. }
  destruct T as [t T]. rewrite T. destruct (0 <=? z - t * n) eqn:H0; [|reflexivity].
  destruct (z - t * n <? n) eqn:H1; [|reflexivity]. cbn [andb]. apply Z.leb_le in H0. apply Z.ltb_lt in H1.
  apply (Z.mod_unique_pos _ _ t); lia.
Qed.
Fixpoint bpow (n k mu a : Z) (e : positive) : Z :=
  match e with
  | xH => a mod n
  | xO e' => let s := bpow n k mu a e' in barrett n k mu (s * s)
  | xI e' => let s := bpow n k mu a e' in barrett n k mu (a * (s * s))
  end.
Lemma bpow_ok n k mu a e : 0 < n -> bpow n k mu a e = a ^ Zpos e mod n.
Proof.
  intros N. induction e as [e IH|e IH|]; cbn [bpow]; cbv zeta.
  - rewrite barrett_ok, IH by exact N. rewrite <- Zmult_mod_idemp_r, <- Zmult_mod, Zmult_mod_idemp_r.
    rewrite Pos2Z.inj_xI. f_equal. replace (2 * Zpos e + 1) with (1 + Zpos e + Zpos e) by ring.
    rewrite !Z.pow_add_r by lia. ring.
  - rewrite barrett_ok, IH by exact N. rewrite <- Zmult_mod.
    rewrite Pos2Z.inj_xO. f_equal. replace (2 * Zpos e) with (Zpos e + Zpos e) by ring.
    rewrite Z.pow_add_r by lia. ring.
  - now rewrite Z.pow_1_r.
Qed.
Definition check_witness (n r a : Z) : bool :=
  match r, (n - 1) / r with
  | Zpos r', Zpos m =>
      let k := Z.log2 n + 1 in
      let mu := 2 ^ (2 * k) / n in
      let b := bpow n k mu a m in
      (Zpos m * r =? n - 1) && (bpow n k mu b r' =? 1) && (Z.gcd (b - 1) n =? 1)
  | _, _ => false
  end.
Lemma check_witness_ok n r a : 1 < n -> 0 < r -> check_witness n r a = true -> (r | n - 1) /\ witness n r a.
Proof.
  intros N R H. unfold check_witness in H. destruct r as [|r'|r']; try discriminate.
  destruct ((n - 1) / Zpos r') as [|m|m] eqn:M; try discriminate. cbv zeta in H.
  apply andb_prop in H as [H H3]. apply andb_prop in H as [H1 H2].
  apply Z.eqb_eq in H1, H2, H3. rewrite !bpow_ok in H2 by lia. rewrite bpow_ok in H3 by lia.
  split; [exists (Zpos m); now rewrite H1|]. split.
  - rewrite <- H1, Z.pow_mul_r by lia. rewrite <- pow_mod_base by lia. exact H2.
  - rewrite M. exact H3.
Qed.

Fixpoint nodupb (l : list Z) : bool :=
  match l with [] => true | x :: r => negb (existsb (Z.eqb x) r) && nodupb r end.
Lemma nodup_small l : nodupb l = true -> NoDup l.
Proof.
  induction l as [|x r IH]; intros H; [constructor|]. cbn in H. apply andb_prop in H as [H1 H2]. constructor; [|auto].
  intros X. apply Bool.negb_true_iff in H1.
  assert (T : existsb (Z.eqb x) r = true) by (apply existsb_exists; exists x; split; [exact X|apply Z.eqb_refl]). congruence.
Qed.

Ltac trial k := apply (small_prime _ k); [lia|vm_compute; reflexivity|vm_compute; reflexivity].
Ltac pock l := apply (pocklington _ l);
  [lia
  |apply nodup_small; vm_compute; reflexivity
  |vm_compute; reflexivity
  |repeat (apply Forall_cons; [cbn [fst snd]; split; [solve [auto]|apply check_witness_ok; [lia|lia|vm_compute; reflexivity]]|]); apply Forall_nil].

Lemma prime_p0 : prime 991. Proof. trial 40%nat. Qed.
Lemma prime_p1 : prime 103. Proof. trial 40%nat. Qed.
Lemma prime_p2 : prime 127. Proof. trial 40%nat. Qed.
Lemma prime_p3 : prime 419. Proof. trial 40%nat. Qed.
Lemma prime_p4 : prime 97. Proof. trial 40%nat. Qed.
Lemma prime_p5 : prime 1723. Proof. trial 60%nat. Qed.
Lemma prime_p6 : prime 4153. Proof. trial 80%nat. Qed.
#[local] Hint Resolve prime_p0 prime_p1 prime_p2 prime_p3 prime_p4 prime_p5 prime_p6 : core.
Lemma prime_q0 : prime 8574133. Proof. pock [(991, 2); (103, 2)]. Qed.
Lemma prime_q1 : prime 569003. Proof. pock [(419, 2); (97, 2)]. Qed.
Lemma prime_q2 : prime 430751. Proof. pock [(1723, 2)]. Qed.
#[local] Hint Resolve prime_q0 prime_q1 prime_q2 : core.
Lemma prime_r0 : prime 1919519569386763. Proof. pock [(8574133, 2); (127, 2)]. Qed.
Lemma prime_r1 : prime 2773320623. Proof. pock [(569003, 2)]. Qed.
#[local] Hint Resolve prime_r0 prime_r1 : core.
Lemma prime_r2 : prime 72106336199. Proof. pock [(2773320623, 2)]. Qed.
Lemma prime_r3 : prime 31757755568855353. Proof. pock [(430751, 2); (4153, 2)]. Qed.
#[local] Hint Resolve prime_r2 prime_r3 : core.
Lemma prime_s0 : prime 75445702479781427272750846543864801.
Proof. pock [(1919519569386763, 2); (72106336199, 2)]. Qed.
#[local] Hint Resolve prime_s0 : core.
Lemma prime_s1 : prime 74058212732561358302231226437062788676166966415465897661863160754340907.
Proof. pock [(75445702479781427272750846543864801, 2); (31757755568855353, 2)]. Qed.
#[local] Hint Resolve prime_s1 : core.

Theorem prime_25519 : prime (2 ^ 255 - 19).
Proof.
  change (2 ^ 255 - 19) with 57896044618658097711785492504343953926634992332820282019728792003956564819949.
  pock [(74058212732561358302231226437062788676166966415465897661863160754340907, 2)].
Qed.

(** ** The order of the base point, 2^252 + 27742317777372353535851937790883648493, is prime *)
Lemma prime_a0 : prime 2551. Proof. trial 60%nat. Qed.
Lemma prime_a1 : prime 3797. Proof. trial 70%nat. Qed.
#[local] Hint Resolve prime_a0 prime_a1 : core.
Lemma prime_b0 : prime 1224481. Proof. pock [(2551, 3)]. Qed.
Lemma prime_b1 : prime 531581. Proof. pock [(3797, 2)]. Qed.
#[local] Hint Resolve prime_b0 prime_b1 : core.
Lemma prime_c0 : prime 1257559732178653. Proof. pock [(531581, 2); (1224481, 2)]. Qed.
#[local] Hint Resolve prime_c0 : core.
Lemma prime_c1 : prime 4434155615661930479. Proof. pock [(1257559732178653, 2)]. Qed.
#[local] Hint Resolve prime_c1 : core.
Lemma prime_c2 : prime 172054593956031949258510691. Proof. pock [(4434155615661930479, 2)]. Qed.
#[local] Hint Resolve prime_c2 : core.
Lemma prime_c3 : prime 19757330305831588566944191468367130476339. Proof. pock [(172054593956031949258510691, 2)]. Qed.
#[local] Hint Resolve prime_c3 : core.
Lemma prime_c4 : prime 276602624281642239937218680557139826668747.
Proof. pock [(19757330305831588566944191468367130476339, 2)]. Qed.
#[local] Hint Resolve prime_c4 : core.
Theorem prime_ed_order : prime (2 ^ 252 + 27742317777372353535851937790883648493).
Proof.
  change (2 ^ 252 + 27742317777372353535851937790883648493)
    with 7237005577332262213973186563042994240857116359379907606001950938285454250989.
  pock [(276602624281642239937218680557139826668747, 2)].
Qed.
