(** * EdField: the field of integers modulo 2^255 - 19 *)
From Coq Require Import ZArith Znumtheory Zpow_facts Lia Field Eqdep_dec Bool.
From Verif Require Import EdPrime.
Open Scope Z_scope.

(** 2^255 - 19, as a literal *)
Definition ed_p : Z := Eval vm_compute in 2 ^ 255 - 19.
Lemma ed_p_prime : prime ed_p.
Proof. exact prime_25519. Qed.
Lemma ed_p_big : 1000000 < ed_p.
Proof. reflexivity. Qed.
Lemma ed_p_odd : Z.odd ed_p = true.
Proof. reflexivity. Qed.

Record fp := Fp { fval : Z; fval_reduced : (fval =? fval mod ed_p) = true }.

Lemma reduced_mod z : (z mod ed_p =? z mod ed_p mod ed_p) = true.
Proof. apply Z.eqb_eq. symmetry. apply Z.mod_mod. discriminate. Qed.
Definition fp_of (z : Z) : fp := Fp (z mod ed_p) (reduced_mod z).

Lemma fp_eq a b : fval a = fval b -> a = b.
Proof. destruct a as [a Ha], b as [b Hb]. cbn. intros ->. f_equal. apply UIP_dec, bool_dec. Qed.
Lemma fval_range a : 0 <= fval a < ed_p.
Proof.
  destruct a as [a H]. cbn. apply Z.eqb_eq in H. rewrite H. apply Z.mod_pos_bound. pose proof ed_p_big. lia.
Qed.
Lemma fp_of_fval a : fp_of (fval a) = a.
Proof. apply fp_eq. cbn [fp_of fval]. apply Z.mod_small, fval_range. Qed.
Lemma fp_of_mod z : fp_of (z mod ed_p) = fp_of z.
Proof. apply fp_eq. cbn [fp_of fval]. apply Z.mod_mod. discriminate. Qed.
Lemma fp_of_eq a b : fp_of a = fp_of b <-> a mod ed_p = b mod ed_p.
Proof.
  split; [intros H; exact (f_equal fval H)|]. intros H. apply fp_eq. exact H.
Qed.

Definition f0 := fp_of 0.
Definition f1 := fp_of 1.
Definition fadd a b := fp_of (fval a + fval b).
Definition fsub a b := fp_of (fval a - fval b).
Definition fopp a := fp_of (- fval a).
Definition fmul a b := fp_of (fval a * fval b).
Definition finv a := fp_of (fval a ^ (ed_p - 2)).
Definition fdiv a b := fmul a (finv b).
Definition fpow a n := fp_of (fval a ^ n).
Definition feqb a b : bool := fval a =? fval b.

Opaque ed_p.
Lemma ed_p_pos : 0 < ed_p. Proof. pose proof ed_p_big. lia. Qed.
Lemma ed_p_nz : ed_p <> 0. Proof. pose proof ed_p_big. lia. Qed.
#[global] Hint Resolve ed_p_pos ed_p_nz : core.

(** [fp_of] is a ring homomorphism *)
Lemma fp_of_add a b : fp_of (a + b) = fadd (fp_of a) (fp_of b).
Proof. apply fp_eq. unfold fadd. cbn [fp_of fval]. now rewrite <- Z.add_mod. Qed.
Lemma fp_of_sub a b : fp_of (a - b) = fsub (fp_of a) (fp_of b).
Proof. apply fp_eq. unfold fsub. cbn [fp_of fval]. now rewrite <- Zminus_mod. Qed.
Lemma fp_of_mul a b : fp_of (a * b) = fmul (fp_of a) (fp_of b).
Proof. apply fp_eq. unfold fmul. cbn [fp_of fval]. now rewrite <- Z.mul_mod. Qed.
Lemma fp_of_opp a : fp_of (- a) = fopp (fp_of a).
Proof.
  apply fp_eq. unfold fopp. cbn [fp_of fval]. replace (- a) with (0 - a) by lia. replace (- (a mod ed_p)) with (0 - a mod ed_p) by lia.
  now rewrite Zminus_mod_idemp_r.
Qed.
Lemma fp_of_pow a n : 0 <= n -> fp_of (a ^ n) = fpow (fp_of a) n.
Proof. intros H. apply fp_eq. unfold fpow. cbn [fp_of fval]. rewrite <- Zpower_mod by auto. reflexivity. Qed.

Lemma feqb_spec a b : reflect (a = b) (feqb a b).
Proof.
  unfold feqb. destruct (Z.eqb_spec (fval a) (fval b)) as [E|E]; constructor.
  - now apply fp_eq.
  - congruence.
Qed.
Lemma fp_eq_dec (a b : fp) : {a = b} + {a <> b}.
Proof. destruct (feqb_spec a b); auto. Qed.

Lemma f1_neq_f0 : f1 <> f0.
Proof.
  intros H. apply fp_of_eq in H. rewrite Z.mod_0_l, Z.mod_small in H; auto; [lia|]. pose proof ed_p_big. lia.
Qed.

Lemma fp_of_zero z : fp_of z = f0 <-> (ed_p | z).
Proof. unfold f0. rewrite fp_of_eq, Z.mod_0_l by auto. now rewrite Z.mod_divide. Qed.

Lemma fpow_fermat a : a <> f0 -> fpow a (ed_p - 1) = f1.
Proof.
  intros H. apply fp_of_eq. rewrite fermat.
  - symmetry. apply Z.mod_small. pose proof ed_p_big. lia.
  - apply ed_p_prime.
  - intros D. apply H. rewrite <- (fp_of_fval a). now apply fp_of_zero.
Qed.

Lemma finv_l a : a <> f0 -> fmul (finv a) a = f1.
Proof.
  intros H. rewrite <- (fpow_fermat a H). unfold finv, fpow. rewrite <- (fp_of_fval a) at 2. rewrite <- fp_of_mul.
  f_equal. rewrite Z.mul_comm, <- Z.pow_succ_r; [f_equal; lia|]. pose proof ed_p_big. lia.
Qed.

Lemma fp_ring : ring_theory f0 f1 fadd fmul fsub fopp (@eq fp).
Proof.
  assert (S : forall a, exists z, a = fp_of z) by (intros a; exists (fval a); symmetry; apply fp_of_fval).
  constructor; intros; repeat match goal with a : fp |- _ => destruct (S a) as [? ->]; clear a end.
  all: unfold f0, f1; rewrite <- ?fp_of_opp, <- ?fp_of_add, <- ?fp_of_mul, <- ?fp_of_add, <- ?fp_of_mul, <- ?fp_of_sub, <- ?fp_of_add.
  all: f_equal; ring.
Qed.
Lemma fp_field : field_theory f0 f1 fadd fmul fsub fopp fdiv finv (@eq fp).
Proof.
  constructor; [exact fp_ring|exact f1_neq_f0|reflexivity|exact finv_l].
Qed.
Add Field fp_field_inst : fp_field.

Declare Scope fp_scope.
Delimit Scope fp_scope with fp.
Bind Scope fp_scope with fp.
Infix "+" := fadd : fp_scope.
Infix "*" := fmul : fp_scope.
Infix "-" := fsub : fp_scope.
Infix "/" := fdiv : fp_scope.
Notation "- x" := (fopp x) : fp_scope.
Notation "0" := f0 : fp_scope.
Notation "1" := f1 : fp_scope.
Open Scope fp_scope.

Lemma fmul_zero a b : a * b = 0 -> a = 0 \/ b = 0.
Proof.
  intros H. destruct (fp_eq_dec a 0) as [|N]; [now left|right].
  replace b with (finv a * (a * b)) by (field; exact N). rewrite H. ring.
Qed.
Lemma fmul_nz a b : a <> 0 -> b <> 0 -> a * b <> 0.
Proof. intros A B H. apply fmul_zero in H as [H|H]; auto. Qed.
Lemma fsub_zero a b : a - b = 0 -> a = b.
Proof. intros H. replace a with (a - b + b) by ring. rewrite H. ring. Qed.
Lemma f2_nz : 1 + 1 <> 0.
Proof.
  unfold f1, f0. rewrite <- fp_of_add. intros H. apply fp_of_eq in H. pose proof ed_p_big.
  rewrite Z.mod_0_l, Z.mod_small in H; auto; lia.
Qed.

Lemma fpow_add a m n : (0 <= m)%Z -> (0 <= n)%Z -> fpow a (m + n) = fpow a m * fpow a n.
Proof. intros M N. unfold fpow. rewrite <- fp_of_mul. f_equal. now apply Z.pow_add_r. Qed.
Lemma fpow_mul a m n : (0 <= m)%Z -> (0 <= n)%Z -> fpow a (m * n) = fpow (fpow a m) n.
Proof.
  intros M N. transitivity (fpow (fp_of (fval a ^ m)) n); [|reflexivity].
  rewrite <- fp_of_pow by assumption. unfold fpow. f_equal. now apply Z.pow_mul_r.
Qed.
Lemma fpow_mul_base a b n : (0 <= n)%Z -> fpow (a * b) n = fpow a n * fpow b n.
Proof.
  intros N. transitivity (fpow (fp_of (fval a * fval b)) n); [reflexivity|].
  rewrite <- fp_of_pow by assumption. unfold fpow. rewrite <- fp_of_mul, <- Z.pow_mul_l. reflexivity.
Qed.
Lemma fpow_0_r a : fpow a 0 = 1.
Proof. reflexivity. Qed.
Lemma fpow_1_r a : fpow a 1 = a.
Proof. unfold fpow. rewrite Z.pow_1_r. apply fp_of_fval. Qed.
Lemma fpow_2_r a : fpow a 2 = a * a.
Proof. unfold fpow, fmul. f_equal. ring. Qed.
Lemma fpow_1_l n : (0 <= n)%Z -> fpow 1 n = 1.
Proof. intros N. unfold f1. rewrite <- fp_of_pow, Z.pow_1_l by assumption. reflexivity. Qed.

(** a square root of 1 is 1 or -1 *)
Lemma square_one a : a * a = 1 -> a = 1 \/ a = - (1).
Proof.
  intros H. assert (E : (a - 1) * (a + 1) = 0) by (replace ((a - 1) * (a + 1)) with (a * a - 1) by ring; rewrite H; ring).
  apply fmul_zero in E as [E|E]; [left; now apply fsub_zero|right]. replace a with (a + 1 - 1) by ring. rewrite E. ring.
Qed.
Lemma square_eq a b : a * a = b * b -> a = b \/ a = - b.
Proof.
  intros H. assert (E : (a - b) * (a + b) = 0) by (replace ((a - b) * (a + b)) with (a * a - b * b) by ring; rewrite H; ring).
  apply fmul_zero in E as [E|E]; [left; now apply fsub_zero|right]. replace a with (a + b - b) by ring. rewrite E. ring.
Qed.

(** parity tells an element from its opposite *)
Lemma fopp_val a : a <> 0 -> fval (- a) = (ed_p - fval a)%Z.
Proof.
  intros H. unfold fopp. cbn [fp_of fval]. pose proof (fval_range a).
  assert (fval a <> 0%Z) by (intros E; apply H, fp_eq; rewrite E; reflexivity).
  rewrite <- (Z_mod_plus_full _ 1). rewrite Z.mod_small; lia.
Qed.
Lemma fopp_parity a : a <> 0 -> Z.odd (fval (- a)) = negb (Z.odd (fval a)).
Proof. intros H. rewrite fopp_val by assumption. rewrite Z.odd_sub, ed_p_odd. now destruct (Z.odd (fval a)). Qed.
