(** * EdCert: polynomial identities behind the group law (generated: cofactors found by polynomial division) *)
From Coq Require Import ZArith Field.
From Verif Require Import EdPrime EdField.
Open Scope fp_scope.

Local Notation f2 := (1 + 1).
Local Notation f4 := (f2 + f2).

(** the curve equation of one point: zero on the curve *)
Definition curve_eq (d x y : fp) : fp := y * y - x * x - 1 - d * x * x * y * y.

Lemma closure_cert d x1 y1 x2 y2 :
  let A := x1 * y2 + y1 * x2 in let B := y1 * y2 + x1 * x2 in let D := d * x1 * x2 * y1 * y2 in
  d * d * (B * B * (1 + D) * (1 + D) - A * A * (1 - D) * (1 - D)
           - ((1 - D * D) * (1 - D * D) + d * A * A * B * B)) =
  (d * d * y2 * y2 * y2 * y2 - f4 * d * d * x2 * x2 * y2 * y2 + f2 * d * d * x2 * x2 * y2 * y2 * y2 * y2 + d * d
      * x2 * x2 * x2 * x2 - f2 * d * d * x2 * x2 * x2 * x2 * y2 * y2 - f2 * d * d * d * x2 * x2 * y2 * y2 - f2 * d *
      d * d * x2 * x2 * x2 * x2 * y2 * y2 * y2 * y2 - d * d * d * y1 * y1 * x2 * x2 * y2 * y2 * y2 * y2 + d * d * d
      * y1 * y1 * x2 * x2 * x2 * x2 * y2 * y2 + d * d * d * x1 * x1 * x2 * x2 * y2 * y2 * y2 * y2 - d * d * d * x1 *
      x1 * x2 * x2 * x2 * x2 * y2 * y2 - d * d * d * d * x2 * x2 * x2 * x2 * y2 * y2 * y2 * y2 + d * d * d * d * y1
      * y1 * x2 * x2 * x2 * x2 * y2 * y2 * y2 * y2 - d * d * d * d * x1 * x1 * x2 * x2 * x2 * x2 * y2 * y2 * y2 * y2
      + d * d * d * d * d * x1 * x1 * y1 * y1 * x2 * x2 * x2 * x2 * y2 * y2 * y2 * y2)
  * curve_eq d x1 y1 +
  (d * d + d * d * y2 * y2 - d * d * x2 * x2 + f2 * d * d * x2 * x2 * y2 * y2 - d * d * y1 * y1 * y2 * y2 + d * d
      * y1 * y1 * x2 * x2 - f2 * d * d * y1 * y1 * x2 * x2 * y2 * y2 + d * d * x1 * x1 * y2 * y2 - d * d * x1 * x1 *
      x2 * x2 + f2 * d * d * x1 * x1 * x2 * x2 * y2 * y2 + d * d * d * x2 * x2 * y2 * y2 - f2 * d * d * d * y1 * y1
      * x2 * x2 * y2 * y2 + d * d * d * y1 * y1 * y1 * y1 * x2 * x2 * y2 * y2 + f2 * d * d * d * x1 * x1 * x2 * x2 *
      y2 * y2 + d * d * d * x1 * x1 * x1 * x1 * x2 * x2 * y2 * y2)
  * curve_eq d x2 y2.
Proof. cbv zeta. unfold curve_eq. ring. Qed.

Lemma assoc_x_cert d x1 y1 x2 y2 x3 y3 :
  let A := x1 * y2 + y1 * x2 in let B := y1 * y2 + x1 * x2 in let D := d * x1 * x2 * y1 * y2 in
  let A' := x2 * y3 + y2 * x3 in let B' := y2 * y3 + x2 * x3 in let D' := d * x2 * x3 * y2 * y3 in
  (A * (1 - D) * y3 + B * (1 + D) * x3) * (1 - D' * D' + d * x1 * y1 * A' * B')
  - (x1 * B' * (1 + D') + y1 * A' * (1 - D')) * (1 - D * D + d * x3 * y3 * A * B) =
  (0 - d * y1 * x2 * y2 * y2 * y2 * y2 * x3 * x3 * y3 - d * y1 * x2 * x2 * y2 * y2 * y2 * x3 - d * y1 * x2 * x2 *
      y2 * y2 * y2 * x3 * x3 * x3 - d * y1 * x2 * x2 * x2 * y2 * y2 * y3 + d * y1 * x2 * x2 * x2 * y2 * y2 * y3 * y3
      * y3 + d * y1 * x2 * x2 * x2 * x2 * y2 * x3 * y3 * y3 + d * x1 * x2 * y2 * y2 * y2 * y2 * x3 * y3 * y3 - d *
      x1 * x2 * x2 * y2 * y2 * y2 * y3 + d * x1 * x2 * x2 * y2 * y2 * y2 * y3 * y3 * y3 - d * x1 * x2 * x2 * x2 * y2
      * y2 * x3 - d * x1 * x2 * x2 * x2 * y2 * y2 * x3 * x3 * x3 - d * x1 * x2 * x2 * x2 * x2 * y2 * x3 * x3 * y3 +
      d * d * y1 * x2 * x2 * x2 * y2 * y2 * y2 * y2 * x3 * x3 * y3 + d * d * y1 * x2 * x2 * x2 * x2 * y2 * y2 * y2 *
      x3 * y3 * y3 - d * d * x1 * x2 * x2 * x2 * y2 * y2 * y2 * y2 * x3 * y3 * y3 - d * d * x1 * x2 * x2 * x2 * x2 *
      y2 * y2 * y2 * x3 * x3 * y3)
  * curve_eq d x1 y1 +
  (y1 * y2 * x3 - y1 * y2 * x3 * y3 * y3 + y1 * y2 * x3 * x3 * x3 + y1 * x2 * y3 - y1 * x2 * y3 * y3 * y3 + y1 *
      x2 * x3 * x3 * y3 - y1 * y1 * y1 * y2 * x3 + y1 * y1 * y1 * y2 * x3 * y3 * y3 - y1 * y1 * y1 * y2 * x3 * x3 *
      x3 - y1 * y1 * y1 * x2 * y3 + y1 * y1 * y1 * x2 * y3 * y3 * y3 - y1 * y1 * y1 * x2 * x3 * x3 * y3 + x1 * y2 *
      y3 - x1 * y2 * y3 * y3 * y3 + x1 * y2 * x3 * x3 * y3 + x1 * x2 * x3 - x1 * x2 * x3 * y3 * y3 + x1 * x2 * x3 *
      x3 * x3 - x1 * y1 * y1 * y2 * y3 + x1 * y1 * y1 * y2 * y3 * y3 * y3 - x1 * y1 * y1 * y2 * x3 * x3 * y3 - x1 *
      y1 * y1 * x2 * x3 + x1 * y1 * y1 * x2 * x3 * y3 * y3 - x1 * y1 * y1 * x2 * x3 * x3 * x3 + x1 * x1 * y1 * y2 *
      x3 - x1 * x1 * y1 * y2 * x3 * y3 * y3 + x1 * x1 * y1 * y2 * x3 * x3 * x3 + x1 * x1 * y1 * x2 * y3 - x1 * x1 *
      y1 * x2 * y3 * y3 * y3 + x1 * x1 * y1 * x2 * x3 * x3 * y3 + x1 * x1 * x1 * y2 * y3 - x1 * x1 * x1 * y2 * y3 *
      y3 * y3 + x1 * x1 * x1 * y2 * x3 * x3 * y3 + x1 * x1 * x1 * x2 * x3 - x1 * x1 * x1 * x2 * x3 * y3 * y3 + x1 *
      x1 * x1 * x2 * x3 * x3 * x3 + d * y1 * y2 * x3 * x3 * x3 * y3 * y3 + d * y1 * x2 * x3 * x3 * y3 * y3 * y3 - d
      * y1 * x2 * y2 * y2 * x3 * x3 * y3 - d * y1 * x2 * x2 * y2 * x3 * y3 * y3 - d * y1 * y1 * y1 * y2 * x3 * x3 *
      x3 * y3 * y3 - d * y1 * y1 * y1 * x2 * x3 * x3 * y3 * y3 * y3 + d * y1 * y1 * y1 * x2 * y2 * y2 * x3 * x3 * y3
      + d * y1 * y1 * y1 * x2 * x2 * y2 * x3 * y3 * y3 + d * x1 * y2 * x3 * x3 * y3 * y3 * y3 + d * x1 * x2 * x3 *
      x3 * x3 * y3 * y3 + d * x1 * x2 * y2 * y2 * x3 * y3 * y3 + d * x1 * x2 * x2 * y2 * x3 * x3 * y3 - d * x1 * y1
      * y1 * y2 * x3 * x3 * y3 * y3 * y3 - d * x1 * y1 * y1 * x2 * x3 * x3 * x3 * y3 * y3 - d * x1 * y1 * y1 * x2 *
      y2 * y2 * x3 * y3 * y3 - d * x1 * y1 * y1 * x2 * x2 * y2 * x3 * x3 * y3 + d * x1 * x1 * y1 * y2 * x3 * x3 * x3
      * y3 * y3 + d * x1 * x1 * y1 * x2 * x3 * x3 * y3 * y3 * y3 - d * x1 * x1 * y1 * x2 * y2 * y2 * x3 * x3 * y3 -
      d * x1 * x1 * y1 * x2 * x2 * y2 * x3 * y3 * y3 + d * x1 * x1 * x1 * y2 * x3 * x3 * y3 * y3 * y3 + d * x1 * x1
      * x1 * x2 * x3 * x3 * x3 * y3 * y3 + d * x1 * x1 * x1 * x2 * y2 * y2 * x3 * y3 * y3 + d * x1 * x1 * x1 * x2 *
      x2 * y2 * x3 * x3 * y3 + d * d * x1 * y1 * y1 * x2 * y2 * y2 * x3 * x3 * x3 * y3 * y3 - d * d * x1 * y1 * y1 *
      x2 * x2 * y2 * x3 * x3 * y3 * y3 * y3 - d * d * x1 * x1 * y1 * x2 * y2 * y2 * x3 * x3 * y3 * y3 * y3 + d * d *
      x1 * x1 * y1 * x2 * x2 * y2 * x3 * x3 * x3 * y3 * y3)
  * curve_eq d x2 y2 +
  (0 - y1 * y2 * x3 + y1 * y2 * y2 * y2 * x3 - y1 * x2 * y3 + y1 * x2 * y2 * y2 * y3 - y1 * x2 * x2 * y2 * x3 -
      y1 * x2 * x2 * x2 * y3 + y1 * y1 * y1 * y2 * x3 - y1 * y1 * y1 * y2 * y2 * y2 * x3 + y1 * y1 * y1 * x2 * y3 -
      y1 * y1 * y1 * x2 * y2 * y2 * y3 + y1 * y1 * y1 * x2 * x2 * y2 * x3 + y1 * y1 * y1 * x2 * x2 * x2 * y3 - x1 *
      y2 * y3 + x1 * y2 * y2 * y2 * y3 - x1 * x2 * x3 + x1 * x2 * y2 * y2 * x3 - x1 * x2 * x2 * y2 * y3 - x1 * x2 *
      x2 * x2 * x3 + x1 * y1 * y1 * y2 * y3 - x1 * y1 * y1 * y2 * y2 * y2 * y3 + x1 * y1 * y1 * x2 * x3 - x1 * y1 *
      y1 * x2 * y2 * y2 * x3 + x1 * y1 * y1 * x2 * x2 * y2 * y3 + x1 * y1 * y1 * x2 * x2 * x2 * x3 - x1 * x1 * y1 *
      y2 * x3 + x1 * x1 * y1 * y2 * y2 * y2 * x3 - x1 * x1 * y1 * x2 * y3 + x1 * x1 * y1 * x2 * y2 * y2 * y3 - x1 *
      x1 * y1 * x2 * x2 * y2 * x3 - x1 * x1 * y1 * x2 * x2 * x2 * y3 - x1 * x1 * x1 * y2 * y3 + x1 * x1 * x1 * y2 *
      y2 * y2 * y3 - x1 * x1 * x1 * x2 * x3 + x1 * x1 * x1 * x2 * y2 * y2 * x3 - x1 * x1 * x1 * x2 * x2 * y2 * y3 -
      x1 * x1 * x1 * x2 * x2 * x2 * x3 - d * x1 * y1 * y1 * x2 * y2 * y2 * x3 + d * x1 * y1 * y1 * x2 * x2 * y2 * y3
      + d * x1 * x1 * y1 * x2 * y2 * y2 * y3 - d * x1 * x1 * y1 * x2 * x2 * y2 * x3)
  * curve_eq d x3 y3.
Proof. cbv zeta. unfold curve_eq. ring. Qed.

Lemma assoc_y_cert d x1 y1 x2 y2 x3 y3 :
  let A := x1 * y2 + y1 * x2 in let B := y1 * y2 + x1 * x2 in let D := d * x1 * x2 * y1 * y2 in
  let A' := x2 * y3 + y2 * x3 in let B' := y2 * y3 + x2 * x3 in let D' := d * x2 * x3 * y2 * y3 in
  (B * (1 + D) * y3 + A * (1 - D) * x3) * (1 - D' * D' - d * x1 * y1 * A' * B')
  - (y1 * B' * (1 + D') + x1 * A' * (1 - D')) * (1 - D * D - d * x3 * y3 * A * B) =
  (d * y1 * x2 * y2 * y2 * y2 * y2 * x3 * y3 * y3 - d * y1 * x2 * x2 * y2 * y2 * y2 * y3 + d * y1 * x2 * x2 * y2
      * y2 * y2 * y3 * y3 * y3 - d * y1 * x2 * x2 * x2 * y2 * y2 * x3 - d * y1 * x2 * x2 * x2 * y2 * y2 * x3 * x3 *
      x3 - d * y1 * x2 * x2 * x2 * x2 * y2 * x3 * x3 * y3 - d * x1 * x2 * y2 * y2 * y2 * y2 * x3 * x3 * y3 - d * x1
      * x2 * x2 * y2 * y2 * y2 * x3 - d * x1 * x2 * x2 * y2 * y2 * y2 * x3 * x3 * x3 - d * x1 * x2 * x2 * x2 * y2 *
      y2 * y3 + d * x1 * x2 * x2 * x2 * y2 * y2 * y3 * y3 * y3 + d * x1 * x2 * x2 * x2 * x2 * y2 * x3 * y3 * y3 - d
      * d * y1 * x2 * x2 * x2 * y2 * y2 * y2 * y2 * x3 * y3 * y3 - d * d * y1 * x2 * x2 * x2 * x2 * y2 * y2 * y2 *
      x3 * x3 * y3 + d * d * x1 * x2 * x2 * x2 * y2 * y2 * y2 * y2 * x3 * x3 * y3 + d * d * x1 * x2 * x2 * x2 * x2 *
      y2 * y2 * y2 * x3 * y3 * y3)
  * curve_eq d x1 y1 +
  (y1 * y2 * y3 - y1 * y2 * y3 * y3 * y3 + y1 * y2 * x3 * x3 * y3 + y1 * x2 * x3 - y1 * x2 * x3 * y3 * y3 + y1 *
      x2 * x3 * x3 * x3 - y1 * y1 * y1 * y2 * y3 + y1 * y1 * y1 * y2 * y3 * y3 * y3 - y1 * y1 * y1 * y2 * x3 * x3 *
      y3 - y1 * y1 * y1 * x2 * x3 + y1 * y1 * y1 * x2 * x3 * y3 * y3 - y1 * y1 * y1 * x2 * x3 * x3 * x3 + x1 * y2 *
      x3 - x1 * y2 * x3 * y3 * y3 + x1 * y2 * x3 * x3 * x3 + x1 * x2 * y3 - x1 * x2 * y3 * y3 * y3 + x1 * x2 * x3 *
      x3 * y3 - x1 * y1 * y1 * y2 * x3 + x1 * y1 * y1 * y2 * x3 * y3 * y3 - x1 * y1 * y1 * y2 * x3 * x3 * x3 - x1 *
      y1 * y1 * x2 * y3 + x1 * y1 * y1 * x2 * y3 * y3 * y3 - x1 * y1 * y1 * x2 * x3 * x3 * y3 + x1 * x1 * y1 * y2 *
      y3 - x1 * x1 * y1 * y2 * y3 * y3 * y3 + x1 * x1 * y1 * y2 * x3 * x3 * y3 + x1 * x1 * y1 * x2 * x3 - x1 * x1 *
      y1 * x2 * x3 * y3 * y3 + x1 * x1 * y1 * x2 * x3 * x3 * x3 + x1 * x1 * x1 * y2 * x3 - x1 * x1 * x1 * y2 * x3 *
      y3 * y3 + x1 * x1 * x1 * y2 * x3 * x3 * x3 + x1 * x1 * x1 * x2 * y3 - x1 * x1 * x1 * x2 * y3 * y3 * y3 + x1 *
      x1 * x1 * x2 * x3 * x3 * y3 + d * y1 * y2 * x3 * x3 * y3 * y3 * y3 + d * y1 * x2 * x3 * x3 * x3 * y3 * y3 + d
      * y1 * x2 * y2 * y2 * x3 * y3 * y3 + d * y1 * x2 * x2 * y2 * x3 * x3 * y3 - d * y1 * y1 * y1 * y2 * x3 * x3 *
      y3 * y3 * y3 - d * y1 * y1 * y1 * x2 * x3 * x3 * x3 * y3 * y3 - d * y1 * y1 * y1 * x2 * y2 * y2 * x3 * y3 * y3
      - d * y1 * y1 * y1 * x2 * x2 * y2 * x3 * x3 * y3 + d * x1 * y2 * x3 * x3 * x3 * y3 * y3 + d * x1 * x2 * x3 *
      x3 * y3 * y3 * y3 - d * x1 * x2 * y2 * y2 * x3 * x3 * y3 - d * x1 * x2 * x2 * y2 * x3 * y3 * y3 - d * x1 * y1
      * y1 * y2 * x3 * x3 * x3 * y3 * y3 - d * x1 * y1 * y1 * x2 * x3 * x3 * y3 * y3 * y3 + d * x1 * y1 * y1 * x2 *
      y2 * y2 * x3 * x3 * y3 + d * x1 * y1 * y1 * x2 * x2 * y2 * x3 * y3 * y3 + d * x1 * x1 * y1 * y2 * x3 * x3 * y3
      * y3 * y3 + d * x1 * x1 * y1 * x2 * x3 * x3 * x3 * y3 * y3 + d * x1 * x1 * y1 * x2 * y2 * y2 * x3 * y3 * y3 +
      d * x1 * x1 * y1 * x2 * x2 * y2 * x3 * x3 * y3 + d * x1 * x1 * x1 * y2 * x3 * x3 * x3 * y3 * y3 + d * x1 * x1
      * x1 * x2 * x3 * x3 * y3 * y3 * y3 - d * x1 * x1 * x1 * x2 * y2 * y2 * x3 * x3 * y3 - d * x1 * x1 * x1 * x2 *
      x2 * y2 * x3 * y3 * y3 + d * d * x1 * y1 * y1 * x2 * y2 * y2 * x3 * x3 * y3 * y3 * y3 - d * d * x1 * y1 * y1 *
      x2 * x2 * y2 * x3 * x3 * x3 * y3 * y3 - d * d * x1 * x1 * y1 * x2 * y2 * y2 * x3 * x3 * x3 * y3 * y3 + d * d *
      x1 * x1 * y1 * x2 * x2 * y2 * x3 * x3 * y3 * y3 * y3)
  * curve_eq d x2 y2 +
  (0 - y1 * y2 * y3 + y1 * y2 * y2 * y2 * y3 - y1 * x2 * x3 + y1 * x2 * y2 * y2 * x3 - y1 * x2 * x2 * y2 * y3 -
      y1 * x2 * x2 * x2 * x3 + y1 * y1 * y1 * y2 * y3 - y1 * y1 * y1 * y2 * y2 * y2 * y3 + y1 * y1 * y1 * x2 * x3 -
      y1 * y1 * y1 * x2 * y2 * y2 * x3 + y1 * y1 * y1 * x2 * x2 * y2 * y3 + y1 * y1 * y1 * x2 * x2 * x2 * x3 - x1 *
      y2 * x3 + x1 * y2 * y2 * y2 * x3 - x1 * x2 * y3 + x1 * x2 * y2 * y2 * y3 - x1 * x2 * x2 * y2 * x3 - x1 * x2 *
      x2 * x2 * y3 + x1 * y1 * y1 * y2 * x3 - x1 * y1 * y1 * y2 * y2 * y2 * x3 + x1 * y1 * y1 * x2 * y3 - x1 * y1 *
      y1 * x2 * y2 * y2 * y3 + x1 * y1 * y1 * x2 * x2 * y2 * x3 + x1 * y1 * y1 * x2 * x2 * x2 * y3 - x1 * x1 * y1 *
      y2 * y3 + x1 * x1 * y1 * y2 * y2 * y2 * y3 - x1 * x1 * y1 * x2 * x3 + x1 * x1 * y1 * x2 * y2 * y2 * x3 - x1 *
      x1 * y1 * x2 * x2 * y2 * y3 - x1 * x1 * y1 * x2 * x2 * x2 * x3 - x1 * x1 * x1 * y2 * x3 + x1 * x1 * x1 * y2 *
      y2 * y2 * x3 - x1 * x1 * x1 * x2 * y3 + x1 * x1 * x1 * x2 * y2 * y2 * y3 - x1 * x1 * x1 * x2 * x2 * y2 * x3 -
      x1 * x1 * x1 * x2 * x2 * x2 * y3 - d * x1 * y1 * y1 * x2 * y2 * y2 * y3 + d * x1 * y1 * y1 * x2 * x2 * y2 * x3
      + d * x1 * x1 * y1 * x2 * y2 * y2 * x3 - d * x1 * x1 * y1 * x2 * x2 * y2 * y3)
  * curve_eq d x3 y3.
Proof. cbv zeta. unfold curve_eq. ring. Qed.
