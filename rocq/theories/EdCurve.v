(** * EdCurve: the group of points of -x^2 + y^2 = 1 + d x^2 y^2 over the integers modulo 2^255 - 19 *)
From Coq Require Import ZArith Zpow_facts Lia Field Eqdep_dec.
From Verif Require Import EdPrime EdField EdCert.
Open Scope fp_scope.

(** RFC 8032, 5.1: d = -121665/121666, and a square root of -1 *)
Definition ed_d : Z := 37095705934669439343138083508754565189542113879843219016388785533085940283555.
Definition ed_sqrt_m1 : Z := 19681161376707505956807079304988542015446066515923890162744021073123829784752.
Definition fd : fp := fp_of ed_d.
Definition fi : fp := fp_of ed_sqrt_m1.

Transparent ed_p.
Lemma ed_d_value : (ed_d * 121666 mod ed_p = -121665 mod ed_p)%Z.
Proof. vm_compute. reflexivity. Qed.
Lemma fi_square : fi * fi = - (1).
Proof. unfold fi, f1. rewrite <- fp_of_mul, <- fp_of_opp. apply fp_of_eq. vm_compute. reflexivity. Qed.
Lemma fd_euler : fpow fd ((ed_p - 1) / 2) = - (1).
Proof.
  unfold fd. rewrite <- fp_of_pow by (vm_compute; discriminate). unfold f1. rewrite <- fp_of_opp. apply fp_of_eq.
  rewrite <- Zpow_mod_correct by discriminate. vm_compute. reflexivity.
Qed.
Lemma half_p : (2 * ((ed_p - 1) / 2) = ed_p - 1)%Z.
Proof. vm_compute. reflexivity. Qed.
Opaque ed_p.

Lemma half_p_pos : (0 <= (ed_p - 1) / 2)%Z.
Proof. pose proof half_p. pose proof ed_p_big. lia. Qed.

(** a square has Euler symbol 1 *)
Lemma square_euler s : s <> 0 -> fpow (s * s) ((ed_p - 1) / 2) = 1.
Proof.
  intros H. rewrite <- fpow_2_r, <- fpow_mul by (try apply half_p_pos; lia). rewrite half_p. now apply fpow_fermat.
Qed.
Lemma m1_neq_1 : - (1) <> 1.
Proof. intros H. apply f2_nz. rewrite <- H at 1. ring. Qed.

(** d is no square *)
Lemma fd_nonsquare s : s * s <> fd.
Proof.
  intros H. destruct (fp_eq_dec s 0) as [->|N].
  - apply m1_neq_1. rewrite <- fd_euler. rewrite <- H. exfalso. pose proof fd_euler as E. rewrite <- H in E.
    assert (Z0 : 0 * 0 = 0) by ring. rewrite Z0 in E. unfold f0 in E at 1. rewrite <- fp_of_pow in E by apply half_p_pos.
    rewrite Z.pow_0_l in E by (pose proof half_p; pose proof ed_p_big; lia). fold f0 in E.
    apply f1_neq_f0. replace 1 with (- - (1)) by ring. rewrite <- E. ring.
  - apply m1_neq_1. now rewrite <- fd_euler, <- H, square_euler.
Qed.
Lemma fd_nz : fd <> 0.
Proof. intros H. apply (fd_nonsquare 0). rewrite H. ring. Qed.

Definition on_curve (x y : fp) : Prop := y * y - x * x = 1 + fd * x * x * y * y.
Lemma on_curve_eq x y : on_curve x y <-> curve_eq fd x y = 0.
Proof.
  unfold on_curve, curve_eq. split; intros H.
  - rewrite H. ring.
  - apply fsub_zero. rewrite <- H. ring.
Qed.

(** ** Completeness: the denominators of the addition law never vanish *)
Lemma denominators x1 y1 x2 y2 : on_curve x1 y1 -> on_curve x2 y2 ->
  let e := fd * x1 * x2 * y1 * y2 in e * e <> 1.
Proof.
  intros C1 C2 e E.
  assert (e <> 0) as NE by (intros H; rewrite H in E; apply f1_neq_f0; rewrite <- E; ring).
  assert (x1 <> 0) as X1 by (intros ->; apply NE; unfold e; ring).
  assert (y1 <> 0) as Y1 by (intros ->; apply NE; unfold e; ring).
  assert (x2 <> 0) as X2 by (intros ->; apply NE; unfold e; ring).
  (* (i x1 + e s y1)^2 = d x1^2 y1^2 (i x2 + s y2)^2 for s = 1, -1 *)
  assert (K : forall s, s * s = 1 ->
    (fi * x1 + s * e * y1) * (fi * x1 + s * e * y1) = fd * (x1 * y1 * (fi * x2 + s * y2)) * (x1 * y1 * (fi * x2 + s * y2))).
  { intros s S.
    assert (L : (fi * x1 + s * e * y1) * (fi * x1 + s * e * y1) = y1 * y1 - x1 * x1 + (1 + 1) * s * e * fi * x1 * y1).
    { replace ((fi * x1 + s * e * y1) * (fi * x1 + s * e * y1)) with
        ((fi * fi) * x1 * x1 + (s * s) * (e * e) * y1 * y1 + (1 + 1) * s * e * fi * x1 * y1) by ring.
      rewrite fi_square, S, E. ring. }
    assert (R : fd * (x1 * y1 * (fi * x2 + s * y2)) * (x1 * y1 * (fi * x2 + s * y2)) =
                fd * x1 * x1 * y1 * y1 * (y2 * y2 - x2 * x2) + (1 + 1) * s * e * fi * x1 * y1).
    { replace (fd * (x1 * y1 * (fi * x2 + s * y2)) * (x1 * y1 * (fi * x2 + s * y2))) with
        (fd * x1 * x1 * y1 * y1 * ((s * s) * y2 * y2 + (fi * fi) * x2 * x2) + (1 + 1) * s * e * fi * x1 * y1) by (unfold e; ring).
      rewrite fi_square, S. ring. }
    rewrite L, R, C1, C2. f_equal.
    replace (fd * x1 * x1 * y1 * y1 * (1 + fd * x2 * x2 * y2 * y2)) with (fd * x1 * x1 * y1 * y1 + e * e) by (unfold e; ring).
    rewrite E. ring. }
  assert (Q : forall s, s * s = 1 -> fi * x2 + s * y2 = 0).
  { intros s S. destruct (fp_eq_dec (fi * x2 + s * y2) 0) as [|N]; [assumption|exfalso].
    set (w := x1 * y1 * (fi * x2 + s * y2)) in *.
    assert (W : w <> 0) by (apply fmul_nz; [now apply fmul_nz|exact N]).
    apply (fd_nonsquare ((fi * x1 + s * e * y1) / w)).
    replace ((fi * x1 + s * e * y1) / w * ((fi * x1 + s * e * y1) / w)) with
      ((fi * x1 + s * e * y1) * (fi * x1 + s * e * y1) / (w * w)) by (field; exact W).
    rewrite (K s S). fold w. field. exact W. }
  pose proof (Q 1 ltac:(ring)) as Q1. pose proof (Q (- (1)) ltac:(ring)) as Q2.
  assert (T : (1 + 1) * (fi * x2) = 0).
  { replace ((1 + 1) * (fi * x2)) with ((fi * x2 + 1 * y2) + (fi * x2 + - (1) * y2)) by ring. rewrite Q1, Q2. ring. }
  apply fmul_zero in T as [T|T]; [now apply f2_nz|]. apply fmul_zero in T as [T|T]; [|now apply X2].
  apply m1_neq_1. exfalso. apply f1_neq_f0. replace 1 with (- - (1)) by ring. rewrite <- fi_square, T. ring.
Qed.

Lemma denominator_plus x1 y1 x2 y2 : on_curve x1 y1 -> on_curve x2 y2 -> 1 + fd * x1 * x2 * y1 * y2 <> 0.
Proof.
  intros C1 C2 H. apply (denominators x1 y1 x2 y2 C1 C2).
  assert (E : fd * x1 * x2 * y1 * y2 = - (1)).
  { replace (fd * x1 * x2 * y1 * y2) with (1 + fd * x1 * x2 * y1 * y2 - 1) by ring. rewrite H. ring. }
  rewrite E. ring.
Qed.
Lemma denominator_minus x1 y1 x2 y2 : on_curve x1 y1 -> on_curve x2 y2 -> 1 - fd * x1 * x2 * y1 * y2 <> 0.
Proof.
  intros C1 C2 H. apply (denominators x1 y1 x2 y2 C1 C2). apply fsub_zero in H. rewrite <- H. ring.
Qed.

(** ** Addition *)
Definition add_x (x1 y1 x2 y2 : fp) : fp := (x1 * y2 + y1 * x2) / (1 + fd * x1 * x2 * y1 * y2).
Definition add_y (x1 y1 x2 y2 : fp) : fp := (y1 * y2 + x1 * x2) / (1 - fd * x1 * x2 * y1 * y2).

Lemma add_on_curve x1 y1 x2 y2 : on_curve x1 y1 -> on_curve x2 y2 -> on_curve (add_x x1 y1 x2 y2) (add_y x1 y1 x2 y2).
Proof.
  intros C1 C2. pose proof (denominator_plus _ _ _ _ C1 C2) as DP. pose proof (denominator_minus _ _ _ _ C1 C2) as DM.
  pose proof (closure_cert fd x1 y1 x2 y2) as K. cbv zeta in K.
  apply on_curve_eq in C1, C2. rewrite C1, C2 in K.
  unfold on_curve, add_x, add_y.
  set (A := x1 * y2 + y1 * x2) in *. set (B := y1 * y2 + x1 * x2) in *. set (D := fd * x1 * x2 * y1 * y2) in *.
  match type of K with _ = ?q1 * 0 + ?q2 * 0 => replace (q1 * 0 + q2 * 0) with 0 in K by ring end.
  apply fmul_zero in K as [K|K]; [exfalso; revert K; apply fmul_nz; apply fd_nz|].
  apply fsub_zero in K.
  transitivity ((B * B * (1 + D) * (1 + D) - A * A * (1 - D) * (1 - D)) / ((1 - D) * (1 - D) * (1 + D) * (1 + D))).
  - field. auto.
  - rewrite K. field. auto.
Qed.

Lemma add_assoc_x x1 y1 x2 y2 x3 y3 : on_curve x1 y1 -> on_curve x2 y2 -> on_curve x3 y3 ->
  add_x (add_x x1 y1 x2 y2) (add_y x1 y1 x2 y2) x3 y3 = add_x x1 y1 (add_x x2 y2 x3 y3) (add_y x2 y2 x3 y3).
Proof.
  intros C1 C2 C3. pose proof (denominator_plus _ _ _ _ C1 C2) as DP. pose proof (denominator_minus _ _ _ _ C1 C2) as DM.
  pose proof (denominator_plus _ _ _ _ C2 C3) as DP'. pose proof (denominator_minus _ _ _ _ C2 C3) as DM'.
  pose proof (denominator_plus _ _ _ _ (add_on_curve _ _ _ _ C1 C2) C3) as EP.
  pose proof (denominator_plus _ _ _ _ C1 (add_on_curve _ _ _ _ C2 C3)) as EP'.
  pose proof (assoc_x_cert fd x1 y1 x2 y2 x3 y3) as K. cbv zeta in K.
  apply on_curve_eq in C1, C2, C3. rewrite C1, C2, C3 in K.
  match type of K with _ = ?q1 * 0 + ?q2 * 0 + ?q3 * 0 => replace (q1 * 0 + q2 * 0 + q3 * 0) with 0 in K by ring end.
  apply fsub_zero in K. unfold add_x, add_y in *.
  set (A := x1 * y2 + y1 * x2) in *. set (B := y1 * y2 + x1 * x2) in *. set (D := fd * x1 * x2 * y1 * y2) in *.
  set (A' := x2 * y3 + y2 * x3) in *. set (B' := y2 * y3 + x2 * x3) in *. set (D' := fd * x2 * x3 * y2 * y3) in *.
  clearbody A B D A' B' D'.
  assert (N : 1 - D * D + fd * x3 * y3 * A * B <> 0).
  { replace (1 - D * D + fd * x3 * y3 * A * B) with
      ((1 + D) * (1 - D) * (1 + fd * (A / (1 + D)) * x3 * (B / (1 - D)) * y3)) by (field; split; assumption).
    repeat apply fmul_nz; assumption. }
  assert (N' : 1 - D' * D' + fd * x1 * y1 * A' * B' <> 0).
  { replace (1 - D' * D' + fd * x1 * y1 * A' * B') with
      ((1 + D') * (1 - D') * (1 + fd * x1 * (A' / (1 + D')) * y1 * (B' / (1 - D')))) by (field; split; assumption).
    repeat apply fmul_nz; assumption. }
  transitivity ((A * (1 - D) * y3 + B * (1 + D) * x3) / (1 - D * D + fd * x3 * y3 * A * B)).
  { replace (1 + fd * (A / (1 + D)) * x3 * (B / (1 - D)) * y3) with
      ((1 - D * D + fd * x3 * y3 * A * B) / ((1 + D) * (1 - D))) by (field; split; assumption).
    field. repeat split; assumption. }
  transitivity ((x1 * B' * (1 + D') + y1 * A' * (1 - D')) / (1 - D' * D' + fd * x1 * y1 * A' * B')).
  2:{ replace (1 + fd * x1 * (A' / (1 + D')) * y1 * (B' / (1 - D'))) with
        ((1 - D' * D' + fd * x1 * y1 * A' * B') / ((1 + D') * (1 - D'))) by (field; split; assumption).
      field. repeat split; assumption. }
  apply fsub_zero.
  match goal with |- ?a / ?b - ?c / ?e = _ => replace (a / b - c / e) with ((a * e - c * b) / (b * e)) by (field; split; assumption) end.
  rewrite K. field. split; assumption.
Qed.

Lemma add_assoc_y x1 y1 x2 y2 x3 y3 : on_curve x1 y1 -> on_curve x2 y2 -> on_curve x3 y3 ->
  add_y (add_x x1 y1 x2 y2) (add_y x1 y1 x2 y2) x3 y3 = add_y x1 y1 (add_x x2 y2 x3 y3) (add_y x2 y2 x3 y3).
Proof.
  intros C1 C2 C3. pose proof (denominator_plus _ _ _ _ C1 C2) as DP. pose proof (denominator_minus _ _ _ _ C1 C2) as DM.
  pose proof (denominator_plus _ _ _ _ C2 C3) as DP'. pose proof (denominator_minus _ _ _ _ C2 C3) as DM'.
  pose proof (denominator_minus _ _ _ _ (add_on_curve _ _ _ _ C1 C2) C3) as EP.
  pose proof (denominator_minus _ _ _ _ C1 (add_on_curve _ _ _ _ C2 C3)) as EP'.
  pose proof (assoc_y_cert fd x1 y1 x2 y2 x3 y3) as K. cbv zeta in K.
  apply on_curve_eq in C1, C2, C3. rewrite C1, C2, C3 in K.
  match type of K with _ = ?q1 * 0 + ?q2 * 0 + ?q3 * 0 => replace (q1 * 0 + q2 * 0 + q3 * 0) with 0 in K by ring end.
  apply fsub_zero in K. unfold add_x, add_y in *.
  set (A := x1 * y2 + y1 * x2) in *. set (B := y1 * y2 + x1 * x2) in *. set (D := fd * x1 * x2 * y1 * y2) in *.
  set (A' := x2 * y3 + y2 * x3) in *. set (B' := y2 * y3 + x2 * x3) in *. set (D' := fd * x2 * x3 * y2 * y3) in *.
  clearbody A B D A' B' D'.
  assert (N : 1 - D * D - fd * x3 * y3 * A * B <> 0).
  { replace (1 - D * D - fd * x3 * y3 * A * B) with
      ((1 + D) * (1 - D) * (1 - fd * (A / (1 + D)) * x3 * (B / (1 - D)) * y3)) by (field; split; assumption).
    repeat apply fmul_nz; assumption. }
  assert (N' : 1 - D' * D' - fd * x1 * y1 * A' * B' <> 0).
  { replace (1 - D' * D' - fd * x1 * y1 * A' * B') with
      ((1 + D') * (1 - D') * (1 - fd * x1 * (A' / (1 + D')) * y1 * (B' / (1 - D')))) by (field; split; assumption).
    repeat apply fmul_nz; assumption. }
  transitivity ((B * (1 + D) * y3 + A * (1 - D) * x3) / (1 - D * D - fd * x3 * y3 * A * B)).
  { replace (1 - fd * (A / (1 + D)) * x3 * (B / (1 - D)) * y3) with
      ((1 - D * D - fd * x3 * y3 * A * B) / ((1 + D) * (1 - D))) by (field; split; assumption).
    field. repeat split; assumption. }
  transitivity ((y1 * B' * (1 + D') + x1 * A' * (1 - D')) / (1 - D' * D' - fd * x1 * y1 * A' * B')).
  2:{ replace (1 - fd * x1 * (A' / (1 + D')) * y1 * (B' / (1 - D'))) with
        ((1 - D' * D' - fd * x1 * y1 * A' * B') / ((1 + D') * (1 - D'))) by (field; split; assumption).
      field. repeat split; assumption. }
  apply fsub_zero.
  match goal with |- ?a / ?b - ?c / ?e = _ => replace (a / b - c / e) with ((a * e - c * b) / (b * e)) by (field; split; assumption) end.
  rewrite K. field. split; assumption.
Qed.

(** ** The group *)
Record point := Point { px : fp; py : fp; p_on_curve : on_curve px py }.

Lemma point_eq a b : px a = px b -> py a = py b -> a = b.
Proof.
  destruct a as [x y H], b as [x' y' H']. cbn. intros -> ->. f_equal. apply UIP_dec, fp_eq_dec.
Qed.

Lemma zero_on_curve : on_curve 0 1.
Proof. unfold on_curve. ring. Qed.
Definition pzero : point := Point 0 1 zero_on_curve.
Definition padd (a b : point) : point :=
  Point (add_x (px a) (py a) (px b) (py b)) (add_y (px a) (py a) (px b) (py b))
    (add_on_curve _ _ _ _ (p_on_curve a) (p_on_curve b)).
Lemma opp_on_curve x y : on_curve x y -> on_curve (- x) y.
Proof. unfold on_curve. intros H. replace (y * y - - x * - x) with (y * y - x * x) by ring. rewrite H. ring. Qed.
Definition popp (a : point) : point := Point (- px a) (py a) (opp_on_curve _ _ (p_on_curve a)).

Lemma padd_assoc a b c : padd (padd a b) c = padd a (padd b c).
Proof.
  apply point_eq; cbn [padd px py]; [apply add_assoc_x|apply add_assoc_y]; apply p_on_curve.
Qed.
Lemma padd_comm a b : padd a b = padd b a.
Proof.
  apply point_eq; cbn [padd px py]; unfold add_x, add_y; f_equal; try ring.
  all: f_equal; ring.
Qed.
Lemma padd_0_l a : padd pzero a = a.
Proof.
  apply point_eq; cbn [padd px py pzero]; unfold add_x, add_y.
  - replace (1 + fd * 0 * px a * 1 * py a) with 1 by ring. field. apply f1_neq_f0.
  - replace (1 - fd * 0 * px a * 1 * py a) with 1 by ring. field. apply f1_neq_f0.
Qed.
Lemma padd_opp_l a : padd (popp a) a = pzero.
Proof.
  pose proof (denominator_plus _ _ _ _ (p_on_curve (popp a)) (p_on_curve a)) as DP.
  pose proof (denominator_minus _ _ _ _ (p_on_curve (popp a)) (p_on_curve a)) as DM.
  pose proof (p_on_curve a) as C. unfold on_curve in C.
  apply point_eq; cbn [padd px py pzero popp] in *; unfold add_x, add_y.
  - replace (- px a * py a + py a * px a) with 0 by ring. field. exact DP.
  - replace (py a * py a + - px a * px a) with (1 - fd * - px a * px a * py a * py a).
    + field. exact DM.
    + transitivity (py a * py a - px a * px a); [rewrite C; ring|ring].
Qed.

(** multiples *)
Fixpoint pmul (n : nat) (a : point) : point :=
  match n with
  | O => pzero
  | S n => padd a (pmul n a)
  end.
Lemma pmul_add m n a : pmul (m + n) a = padd (pmul m a) (pmul n a).
Proof. induction m as [|m IH]; cbn; [now rewrite padd_0_l|]. now rewrite IH, padd_assoc. Qed.
Lemma pmul_zero n : pmul n pzero = pzero.
Proof. induction n as [|n IH]; cbn; [reflexivity|]. now rewrite IH, padd_0_l. Qed.
Lemma pmul_mul m n a : pmul (m * n) a = pmul m (pmul n a).
Proof. induction m as [|m IH]; cbn; [reflexivity|]. now rewrite pmul_add, IH. Qed.
Lemma popp_add a b : popp (padd a b) = padd (popp a) (popp b).
Proof.
  apply point_eq; cbn [padd px py popp]; unfold add_x, add_y.
  - replace (fd * - px a * - px b * py a * py b) with (fd * px a * px b * py a * py b) by ring.
    pose proof (denominator_plus _ _ _ _ (p_on_curve a) (p_on_curve b)). field. auto.
  - replace (fd * - px a * - px b * py a * py b) with (fd * px a * px b * py a * py b) by ring.
    replace (- px a * - px b) with (px a * px b) by ring. reflexivity.
Qed.
Lemma popp_zero : popp pzero = pzero.
Proof. apply point_eq; cbn [popp pzero px py]; ring. Qed.
Lemma pmul_opp n a : pmul n (popp a) = popp (pmul n a).
Proof. induction n as [|n IH]; cbn; [now rewrite popp_zero|]. now rewrite popp_add, IH. Qed.
