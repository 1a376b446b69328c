(** * Ed25519Facts: the program of Ed25519.v computes in the group of EdCurve.v *)
From Coq Require Import Strings.String.
From Coq Require Import ZArith Field.
From Verif Require Import Base SerdeFacts Codec Packet EdField EdCurve Sha512 Ed25519.
Open Scope Z_scope.

Ltac conjs := lazymatch goal with |- _ /\ _ => apply conj; [|conjs] | _ => idtac end.

Lemma some_inj {A} (a b : A) : Some a = Some b -> a = b.
Proof. congruence. Qed.

(** ** Field arithmetic *)
Lemma fval_of z : fval (fp_of z) = z mod ed_p.
Proof. reflexivity. Qed.
Lemma mulp_of a b : mulp a b = fval (fmul (fp_of a) (fp_of b)).
Proof. unfold mulp. now rewrite modp_spec, <- fp_of_mul. Qed.
Lemma addp_of a b : addp a b = fval (fadd (fp_of a) (fp_of b)).
Proof. unfold addp. now rewrite modp_spec, <- fp_of_add. Qed.
Lemma subp_of a b : subp a b = fval (fsub (fp_of a) (fp_of b)).
Proof. unfold subp. now rewrite modp_spec, <- fp_of_sub. Qed.

Lemma hom_mul a b : fp_of (mulp a b) = fmul (fp_of a) (fp_of b).
Proof. now rewrite mulp_of, fp_of_fval. Qed.
Lemma hom_add a b : fp_of (addp a b) = fadd (fp_of a) (fp_of b).
Proof. now rewrite addp_of, fp_of_fval. Qed.
Lemma hom_sub a b : fp_of (subp a b) = fsub (fp_of a) (fp_of b).
Proof. now rewrite subp_of, fp_of_fval. Qed.

Lemma mulp_fval a b : mulp (fval a) (fval b) = fval (fmul a b).
Proof. now rewrite mulp_of, !fp_of_fval. Qed.
Lemma addp_fval a b : addp (fval a) (fval b) = fval (fadd a b).
Proof. now rewrite addp_of, !fp_of_fval. Qed.
Lemma subp_fval a b : subp (fval a) (fval b) = fval (fsub a b).
Proof. now rewrite subp_of, !fp_of_fval. Qed.

Lemma powp_pos_fval a n : powp_pos (fval a) n = fval (fpow a (Zpos n)).
Proof.
  induction n as [n IH|n IH|]; cbn [powp_pos].
  - rewrite IH. rewrite !mulp_fval. f_equal.
    replace (Zpos n~1) with (1 + (Zpos n + Zpos n)) by lia. rewrite !fpow_add by lia. now rewrite fpow_1_r.
  - rewrite IH. rewrite !mulp_fval. f_equal.
    replace (Zpos n~0) with (Zpos n + Zpos n) by lia. now rewrite fpow_add by lia.
  - rewrite modp_spec, fpow_1_r, <- fval_of, fp_of_fval. reflexivity.
Qed.

Lemma powp_fval a n : 0 <= n -> powp (fval a) n = fval (fpow a n).
Proof.
  destruct n as [|n|n]; intros H; [|apply powp_pos_fval|lia].
  rewrite fpow_0_r. cbn [powp]. unfold f1. rewrite fval_of. rewrite Z.mod_small; [reflexivity|]. pose proof ed_p_big. lia.
Qed.

Lemma invp_fval a : invp (fval a) = fval (finv a).
Proof. unfold invp. rewrite powp_fval by (pose proof ed_p_big; lia). reflexivity. Qed.

Lemma fval_one : fval f1 = 1.
Proof. unfold f1. rewrite fval_of, Z.mod_small; [reflexivity|]. pose proof ed_p_big. lia. Qed.
Lemma fval_zero : fval f0 = 0.
Proof. reflexivity. Qed.
Transparent ed_p.
Lemma fval_d : fval fd = ed_d.
Proof. vm_compute. reflexivity. Qed.
Lemma fval_i : fval fi = ed_sqrt_m1.
Proof. vm_compute. reflexivity. Qed.
Lemma p_minus_5 : 8 * ((ed_p - 5) / 8) = ed_p - 5.
Proof. vm_compute. reflexivity. Qed.
Lemma ed_p_lt : ed_p < 2 ^ 255.
Proof. vm_compute. reflexivity. Qed.
Opaque ed_p.

(** ** Extended coordinates *)
Definition represents (P : ext) (a : point) : Prop :=
  exists z, z <> f0 /\ fp_of (eX P) = fmul (px a) z /\ fp_of (eY P) = fmul (py a) z /\ fp_of (eZ P) = z /\
            fp_of (eT P) = fmul (fmul (px a) (py a)) z.

Lemma of_fval2 a : fp_of (2 * a) = fmul (fadd f1 f1) (fp_of a).
Proof. rewrite fp_of_mul. replace (fp_of 2) with (fadd f1 f1); [reflexivity|]. unfold f1. now rewrite <- fp_of_add. Qed.

Lemma ext_zero_ok : represents ext_zero pzero.
Proof.
  exists f1. split; [exact f1_neq_f0|]. cbn [ext_zero eX eY eZ eT pzero px py].
  change (fp_of 0) with f0. change (fp_of 1) with f1. conjs; ring.
Qed.

Lemma ext_add_ok P Q a b : represents P a -> represents Q b -> represents (ext_add P Q) (padd a b).
Proof.
  intros (z1 & N1 & X1 & Y1 & Z1 & T1) (z2 & N2 & X2 & Y2 & Z2 & T2).
  pose proof (denominator_plus _ _ _ _ (p_on_curve a) (p_on_curve b)) as DP.
  pose proof (denominator_minus _ _ _ _ (p_on_curve a) (p_on_curve b)) as DM.
  unfold represents, ext_add. cbn [eX eY eZ eT padd px py]. unfold add_x, add_y.
  repeat rewrite ?hom_mul, ?hom_add, ?hom_sub. change (fp_of ed_d) with fd.
  rewrite !of_fval2, X1, Y1, Z1, T1, X2, Y2, Z2, T2. clear X1 Y1 Z1 T1 X2 Y2 Z2 T2.
  set (x1 := px a) in *. set (y1 := py a) in *. set (x2 := px b) in *. set (y2 := py b) in *.
  eexists. conjs; cycle 3.
  - reflexivity.
  - field. split; assumption.
  - assert (H : forall u v w : fp, u <> f0 -> v <> f0 -> w <> f0 -> fmul (fmul u v) w <> f0)
      by (intros; repeat apply fmul_nz; assumption).
    match goal with |- fmul ?F ?G <> f0 => assert (EF : F = fmul (fmul (fmul (fadd f1 f1) z1) z2) (fsub f1 (fmul (fmul (fmul (fmul fd x1) x2) y1) y2))) by ring;
      assert (EG : G = fmul (fmul (fmul (fadd f1 f1) z1) z2) (fadd f1 (fmul (fmul (fmul (fmul fd x1) x2) y1) y2))) by ring end.
    rewrite EF, EG. repeat apply fmul_nz; try assumption; apply f2_nz.
  - field. exact DP.
  - field. exact DM.
Qed.

Lemma ext_neg_ok P a : represents P a -> represents (ext_neg P) (popp a).
Proof.
  intros (z & N & X & Y & Z & T). exists z. split; [exact N|]. unfold ext_neg. cbn [eX eY eZ eT popp px py].
  rewrite !subp_of, !fp_of_fval, X, Y, T. change (fp_of 0) with f0. conjs; try assumption; ring.
Qed.

Lemma ext_mul_pos_ok P a : represents P a -> forall n, represents (ext_mul_pos n P) (pmul (Pos.to_nat n) a).
Proof.
  intros R. induction n as [n IH|n IH|]; cbn [ext_mul_pos].
  - rewrite Pos2Nat.inj_xI. replace (S (2 * Pos.to_nat n))%nat with (1 + (Pos.to_nat n + Pos.to_nat n))%nat by lia.
    rewrite !pmul_add. cbn [pmul]. rewrite (padd_comm a pzero), padd_0_l. repeat apply ext_add_ok; assumption.
  - rewrite Pos2Nat.inj_xO. replace (2 * Pos.to_nat n)%nat with (Pos.to_nat n + Pos.to_nat n)%nat by lia.
    rewrite !pmul_add. apply ext_add_ok; assumption.
  - rewrite Pos2Nat.inj_1. cbn [pmul]. rewrite padd_comm, padd_0_l. exact R.
Qed.
Lemma ext_mul_ok P a n : represents P a -> represents (ext_mul n P) (pmul (Z.to_nat n) a).
Proof.
  intros R. destruct n as [|n|n]; cbn [ext_mul]; try exact ext_zero_ok.
  rewrite Z2Nat.inj_pos. now apply ext_mul_pos_ok.
Qed.

(** ** Encodings *)
Lemma le_bytes_length k z : length (le_bytes k z) = k.
Proof. unfold le_bytes. now rewrite rev_length, be_length. Qed.
Lemma le_int_bytes k z : 0 <= z < 256 ^ Z.of_nat k -> le_int (le_bytes k z) = z.
Proof.
  intros H. unfold le_int, le_bytes. rewrite rev_involutive, be_value_be_small; [lia|].
  apply N2Z.inj_lt. rewrite N2Z.inj_pow, nat_N_Z, Z2N.id by lia. exact (proj2 H).
Qed.
Lemma le_bytes_int b : le_bytes (length b) (le_int b) = b.
Proof. unfold le_bytes, le_int. rewrite N2Z.id, <- (rev_length b), be_be_value. apply rev_involutive. Qed.
Lemma le_int_range b : 0 <= le_int b < 256 ^ Z.of_nat (length b).
Proof.
  unfold le_int. split; [lia|]. pose proof (be_value_lt (rev b)) as H. rewrite rev_length in H.
  apply N2Z.inj_lt in H. now rewrite N2Z.inj_pow, nat_N_Z in H.
Qed.

(** RFC 8032 5.1.2 on a point of the curve *)
Definition encode (a : point) : list byte := le_bytes 32 (fval (py a) + 2 ^ 255 * (fval (px a) mod 2)).

Lemma encode_length a : length (encode a) = 32%nat.
Proof. apply le_bytes_length. Qed.

Lemma fp_mul_div x z : z <> f0 -> fmul (fmul x z) (finv z) = x.
Proof. intros N. field. exact N. Qed.

Lemma mod_of_of z : fp_of z = fp_of (fval (fp_of z)).
Proof. now rewrite fp_of_fval. Qed.

Lemma powp_pos_mod a n : powp_pos a n = powp_pos (fval (fp_of a)) n.
Proof.
  induction n as [n IH|n IH|]; cbn [powp_pos].
  - rewrite IH. rewrite (mulp_of a), (mulp_of (fval (fp_of a))). now rewrite fp_of_fval.
  - now rewrite IH.
  - rewrite !modp_spec, fval_of. now rewrite Zmod_mod.
Qed.
Lemma powp_mod a n : powp a n = powp (fval (fp_of a)) n.
Proof. destruct n; cbn [powp]; [reflexivity| apply powp_pos_mod |reflexivity]. Qed.

Lemma compress_ok P a : represents P a -> compress P = encode a.
Proof.
  intros (z & N & X & Y & Z & T). unfold compress, encode. cbv zeta.
  assert (I : fp_of (invp (eZ P)) = finv z).
  { unfold invp. rewrite powp_mod. fold (invp (fval (fp_of (eZ P)))). now rewrite invp_fval, fp_of_fval, Z. }
  rewrite !mulp_of, I, X, Y. now rewrite !(fp_mul_div _ z N).
Qed.

Lemma encoded_range a : 0 <= fval (py a) + 2 ^ 255 * (fval (px a) mod 2) < 256 ^ Z.of_nat 32.
Proof.
  pose proof (fval_range (py a)). pose proof ed_p_lt. pose proof (Z.mod_pos_bound (fval (px a)) 2 eq_refl).
  replace (256 ^ Z.of_nat 32) with (2 ^ 255 * 2) by reflexivity. nia.
Qed.

(** ** Decoding *)

(** [decompress] on field elements *)
Definition root (u v : fp) : option fp :=
  let v3 := fmul v (fmul v v) in
  let x := fmul (fmul u v3) (fpow (fmul u (fmul v3 (fmul v3 v))) ((ed_p - 5) / 8)) in
  let vxx := fmul v (fmul x x) in
  if feqb vxx u then Some x else if feqb vxx (fsub f0 u) then Some (fmul x fi) else None.
Definition decode_u (y : fp) : fp := fsub (fmul y y) f1.
Definition decode_v (y : fp) : fp := fadd (fmul fd (fmul y y)) f1.

Lemma decompress_root b : length b = 32%nat ->
  decompress b =
    let y := fp_of (le_int b mod 2 ^ 255) in
    match root (decode_u y) (decode_v y) with
    | Some x => let x := if fval x mod 2 =? le_int b / 2 ^ 255 then x else fsub f0 x in
                Some (Ext (fval x) (fval y) 1 (fval (fmul x y)))
    | None => None
    end.
Proof.
  intros L. unfold decompress. rewrite L. cbn [Nat.eqb]. cbv zeta.
  rewrite modp_spec, <- fval_of. set (y := fp_of (le_int b mod 2 ^ 255)).
  rewrite <- fval_one, <- fval_zero, <- fval_d, <- fval_i.
  repeat (rewrite ?mulp_fval, ?addp_fval, ?subp_fval).
  rewrite powp_fval by (pose proof p_minus_5; pose proof ed_p_big; lia).
  repeat (rewrite ?mulp_fval, ?addp_fval, ?subp_fval).
  fold (decode_u y). fold (decode_v y). unfold root, feqb. cbv zeta.
  rewrite fval_one.
  match goal with |- context [fval ?a =? fval ?b] => destruct (fval a =? fval b) end;
    [|match goal with |- context [fval ?a =? fval ?b] => destruct (fval a =? fval b) end; [|reflexivity]];
    match goal with |- context [(fval ?x mod 2 =? ?s)] => destruct (fval x mod 2 =? s) end; rewrite ?subp_fval, ?mulp_fval; reflexivity.
Qed.

Lemma root_sound u v x : root u v = Some x -> fmul v (fmul x x) = u.
Proof.
  unfold root. cbv zeta. set (x0 := fmul (fmul u _) _). destruct (feqb_spec (fmul v (fmul x0 x0)) u) as [E|_].
  - intros [= <-]. exact E.
  - destruct (feqb_spec (fmul v (fmul x0 x0)) (fsub f0 u)) as [E|_]; [|discriminate].
    intros [= <-]. replace (fmul v (fmul (fmul x0 fi) (fmul x0 fi))) with (fmul (fmul v (fmul x0 x0)) (fmul fi fi)) by ring.
    rewrite E, fi_square. ring.
Qed.

Lemma decode_v_nz y : decode_v y <> f0.
Proof.
  unfold decode_v. intros H. destruct (fp_eq_dec y f0) as [->|N].
  - apply f1_neq_f0. rewrite <- H. ring.
  - apply (fd_nonsquare (fdiv fi y)).
    transitivity (fdiv (fmul fi fi) (fmul y y)); [field; exact N|]. rewrite fi_square.
    assert (E : fopp f1 = fmul fd (fmul y y)).
    { apply fsub_zero. transitivity (fopp (fadd (fmul fd (fmul y y)) f1)); [ring|]. rewrite H. ring. }
    rewrite E. field. exact N.
Qed.

Lemma root_complete u v x : v <> f0 -> fmul v (fmul x x) = u ->
  exists r, root u v = Some r /\ (r = x \/ r = fopp x).
Proof.
  intros Nv <-. unfold root. cbv zeta.
  set (v3 := fmul v (fmul v v)). set (e := (ed_p - 5) / 8).
  pose proof p_minus_5 as E5. fold e in E5. pose proof ed_p_big as Big.
  destruct (fp_eq_dec x f0) as [->|Nx].
  { assert (E0 : forall a, fmul (fmul (fmul v (fmul f0 f0)) v3) a = f0) by (intros; ring). rewrite E0.
    destruct (feqb_spec (fmul v (fmul f0 f0)) (fmul v (fmul f0 f0))) as [_|C]; [|now contradiction C].
    exists f0. split; [reflexivity|now left]. }
  set (s := fmul x (fmul (fmul v v) (fmul v v))).
  assert (Ns : s <> f0) by (unfold s; repeat apply fmul_nz; assumption).
  set (t := fpow s (2 * e + 1)).
  assert (X0 : fmul (fmul (fmul v (fmul x x)) v3) (fpow (fmul (fmul v (fmul x x)) (fmul v3 (fmul v3 v))) e) = fmul x t).
  { replace (fmul (fmul v (fmul x x)) (fmul v3 (fmul v3 v))) with (fmul s s) by (unfold s, v3; ring).
    rewrite <- (fpow_2_r s), <- fpow_mul by lia. unfold t. rewrite fpow_add, fpow_1_r by lia. unfold s at 3, v3. ring. }
  rewrite X0. clear X0.
  assert (T4 : fmul (fmul t t) (fmul t t) = f1).
  { unfold t. rewrite <- !fpow_add by lia. replace (2 * e + 1 + (2 * e + 1) + (2 * e + 1 + (2 * e + 1))) with (ed_p - 1) by lia.
    now apply fpow_fermat. }
  set (u := fmul v (fmul x x)).
  assert (Nu : u <> f0) by (unfold u; repeat apply fmul_nz; assumption).
  replace (fmul v (fmul (fmul x t) (fmul x t))) with (fmul u (fmul t t)) by (unfold u; ring).
  destruct (square_one _ T4) as [H|H]; rewrite H.
  - replace (fmul u f1) with u by ring. destruct (feqb_spec u u) as [_|C]; [|now contradiction C].
    eexists. split; [reflexivity|]. destruct (square_one _ H) as [-> | ->]; [left|right]; ring.
  - replace (fmul u (fopp f1)) with (fsub f0 u) by ring.
    destruct (feqb_spec (fsub f0 u) u) as [C|_].
    { exfalso. assert (D : fmul (fadd f1 f1) u = f0) by (transitivity (fsub u (fsub f0 u)); [ring|rewrite C; ring]).
      destruct (fmul_zero _ _ D) as [D2|D2]; [now apply f2_nz|now apply Nu]. }
    destruct (feqb_spec (fsub f0 u) (fsub f0 u)) as [_|C]; [|now contradiction C].
    eexists. split; [reflexivity|].
    assert (Q : fmul (fmul t fi) (fmul t fi) = f1).
    { transitivity (fmul (fmul t t) (fmul fi fi)); [ring|]. rewrite H, fi_square. ring. }
    destruct (square_one _ Q) as [Q1|Q1]; [left|right]; transitivity (fmul x (fmul t fi)); try ring; rewrite Q1; ring.
Qed.

Lemma curve_uv x y : on_curve x y <-> fmul (decode_v y) (fmul x x) = decode_u y.
Proof.
  unfold on_curve, decode_u, decode_v. split; intros H.
  - apply fsub_zero. match type of H with ?l = ?r => transitivity (fsub r l); [ring|rewrite H; ring] end.
  - apply fsub_zero. match type of H with ?l = ?r => transitivity (fsub r l); [ring|rewrite H; ring] end.
Qed.

(** RFC 8032 5.1.3: [b] is an encoding of [a] (a y that is not reduced is allowed; when x = 0 so is either sign) *)
Definition decodes (b : list byte) (a : point) : Prop :=
  length b = 32%nat /\ py a = fp_of (le_int b mod 2 ^ 255) /\
  (fval (px a) mod 2 = le_int b / 2 ^ 255 \/ px a = f0).

(** what [decompress] returns is on the curve, with the encoded y and sign *)
Lemma decompress_sound b P : decompress b = Some P ->
  exists a, represents P a /\ decodes b a.
Proof.
  intros H. assert (L : length b = 32%nat).
  { unfold decompress in H. destruct (Nat.eqb_spec (length b) 32) as [L|L]; [exact L|discriminate]. }
  rewrite (decompress_root b L) in H. cbv zeta in H. set (y := fp_of (le_int b mod 2 ^ 255)) in *.
  destruct (root (decode_u y) (decode_v y)) as [r|] eqn:R; [|discriminate].
  apply root_sound in R. set (x := if fval r mod 2 =? le_int b / 2 ^ 255 then r else fsub f0 r) in *.
  assert (O : on_curve x y).
  { apply curve_uv. rewrite <- R. unfold x. destruct (fval r mod 2 =? le_int b / 2 ^ 255); ring. }
  exists (Point x y O). cbn [px py]. apply some_inj in H. rewrite <- H. clear H.
  split; [|split; [exact L|split; [reflexivity|]]].
  - exists f1. split; [exact f1_neq_f0|]. cbn [eX eY eZ eT px py]. rewrite !fp_of_fval.
    change (fp_of 1) with f1. conjs; ring.
  - cbn [px py]. unfold x. destruct (Z.eqb_spec (fval r mod 2) (le_int b / 2 ^ 255)) as [E|E]; [now left|].
    destruct (fp_eq_dec r f0) as [->|N]; [right; ring|left].
    replace (fsub f0 r) with (fopp r) by ring.
    pose proof (fopp_parity r N) as Pz. pose proof (le_int_range b) as Rg. rewrite L in Rg.
    assert (D : 0 <= le_int b / 2 ^ 255 < 2).
    { split; [apply Z.div_pos; lia|]. apply Z.div_lt_upper_bound; [lia|].
      replace (2 ^ 255 * 2) with (256 ^ Z.of_nat 32) by reflexivity. apply Rg. }
    rewrite !Zmod_odd in *. rewrite Pz. destruct (Z.odd (fval r)); cbn [negb]; lia.
Qed.

Lemma decompress_complete b a : decodes b a -> exists P, decompress b = Some P /\ represents P a.
Proof.
  intros (L & Y & S). rewrite (decompress_root b L). cbv zeta. rewrite <- Y. clear Y.
  destruct (root_complete _ _ (px a) (decode_v_nz (py a)) (proj1 (curve_uv _ _) (p_on_curve a))) as (r & -> & Hr).
  set (s := le_int b / 2 ^ 255) in *.
  set (x := if fval r mod 2 =? s then r else fsub f0 r).
  assert (X : x = px a).
  { unfold x. destruct (fp_eq_dec (px a) f0) as [E|N].
    - rewrite E in *. assert (R0 : r = f0) by (destruct Hr as [-> | ->]; ring). rewrite R0.
      destruct (fval f0 mod 2 =? s); ring.
    - destruct S as [S|S]; [|contradiction]. rewrite <- S. destruct Hr as [-> | ->].
      + now rewrite Z.eqb_refl.
      + pose proof (fopp_parity _ N) as Pz. rewrite !Zmod_odd, Pz.
        destruct (Z.odd (fval (px a))); cbn [negb Z.eqb]; ring. }
  rewrite X. eexists. split; [reflexivity|]. exists f1. split; [exact f1_neq_f0|]. cbn [eX eY eZ eT].
  rewrite !fp_of_fval. change (fp_of 1) with f1. conjs; ring.
Qed.

Lemma encode_decodes a : decodes (encode a) a.
Proof.
  pose proof (encoded_range a) as Rg. pose proof (fval_range (py a)) as Ry. pose proof ed_p_lt as Lt.
  split; [apply encode_length|]. unfold encode. rewrite le_int_bytes by exact Rg.
  set (s := fval (px a) mod 2) in *. split; [|left].
  - rewrite (Z.mul_comm (2 ^ 255)), Z_mod_plus_full, Z.mod_small by lia. now rewrite fp_of_fval.
  - rewrite (Z.mul_comm (2 ^ 255)), Z_div_plus_full by lia. rewrite Z.div_small; lia.
Qed.

Lemma represents_fun P a b : represents P a -> represents P b -> a = b.
Proof.
  intros (z & N & X & Y & Z & T) (z' & N' & X' & Y' & Z' & T').
  rewrite Z in Z'. subst z'. rewrite X in X'. rewrite Y in Y'.
  assert (C : forall u v, fmul u z = fmul v z -> u = v).
  { intros u v H. rewrite <- (fp_mul_div u z N), H. apply fp_mul_div, N. }
  apply point_eq; apply C; assumption.
Qed.
Lemma decodes_fun x a b : decodes x a -> decodes x b -> a = b.
Proof.
  intros Da Db. destruct (decompress_complete _ _ Da) as (P & Pa & Ra), (decompress_complete _ _ Db) as (Q & Qb & Rb).
  rewrite Pa in Qb. apply some_inj in Qb. subst Q. exact (represents_fun _ _ _ Ra Rb).
Qed.

Lemma encode_inj a b : encode a = encode b -> a = b.
Proof. intros E. apply (decodes_fun (encode a)); [|rewrite E]; apply encode_decodes. Qed.

(** ** The base point *)
Transparent ed_p.
Lemma base_on_curve : on_curve (fp_of base_x) (fp_of base_y).
Proof.
  unfold on_curve, fd, f1. rewrite <- ?fp_of_mul, <- ?fp_of_add, <- ?fp_of_sub. apply fp_of_eq. vm_compute. reflexivity.
Qed.
Definition base : point := Point (fp_of base_x) (fp_of base_y) base_on_curve.
Lemma base_5y : (5 * base_y) mod ed_p = 4.
Proof. vm_compute. reflexivity. Qed.
Lemma order_computed : let Q := ext_mul ed_L base_point in (eX Q =? 0) && (eY Q =? eZ Q) = true.
Proof. vm_compute. reflexivity. Qed.
Opaque ed_p.

Lemma base_point_ok : represents base_point base.
Proof.
  exists f1. split; [exact f1_neq_f0|]. unfold base_point, base. cbn [eX eY eZ eT px py].
  change (fp_of 1) with f1. rewrite mulp_of, fp_of_fval. conjs; ring.
Qed.

(** L B = O *)
Lemma base_order : pmul (Z.to_nat ed_L) base = pzero.
Proof.
  pose proof (ext_mul_ok _ _ ed_L base_point_ok) as (z & N & X & Y & Z & _).
  pose proof order_computed as C. cbv zeta in C. apply andb_prop in C as [C1 C2].
  apply Z.eqb_eq in C1, C2. rewrite C1 in X. rewrite C2, Z in Y. change (fp_of 0) with f0 in X.
  apply point_eq; cbn [pzero px py].
  - destruct (fmul_zero _ _ (eq_sym X)) as [H|H]; [exact H|contradiction].
  - rewrite <- (fp_mul_div (py _) z N), <- Y. field. exact N.
Qed.

(** the order is exactly L *)
Lemma base_not_zero : base <> pzero.
Proof.
  intros H. apply (f_equal (fun a => fval (px a))) in H. revert H. cbn [base px pzero]. rewrite fval_zero, fval_of.
  intros H. apply Z.mod_divide in H; [|apply ed_p_nz]. apply Z.divide_pos_le in H; [|reflexivity].
  revert H. rewrite ed_p_value. vm_compute. intros C. now apply C.
Qed.
