(** * FixedSizeProofs *)
From Verif Require Import Base Serde Codec SerdeFacts CodecFacts Packet CryptoProofs FixedSize FixedSizeSpec.
Open Scope nat_scope.

Lemma le_digits : forall (b : list byte),
  let v := int_of Little b in
  (v < 256 ^ N.of_nat (length b))%N /\ map (fun i => byte_of_N ((v / 256 ^ N.of_nat i) mod 256)) (seq 0 (length b)) = b.
Proof.
  induction b as [|x b [IH1 IH2]]; [split; [cbn; lia|reflexivity]|].
  cbv zeta in *. set (v := int_of Little b) in *.
  assert (E : int_of Little (x :: b) = (N_of_byte x + 256 * v)%N) by reflexivity.
  rewrite E. pose proof (N_of_byte_lt x) as Hx. split.
  - cbn [length]. rewrite Nat2N.inj_succ, N.pow_succ_r'. lia.
  - cbn [length seq map]. f_equal.
    + rewrite N.pow_0_r, N.div_1_r. rewrite N.mul_comm, N.mod_add, N.mod_small by lia. apply byte_of_N_of_byte.
    + rewrite <- seq_shift, map_map. etransitivity; [|exact IH2]. apply map_ext. intros i. f_equal. f_equal.
      rewrite Nat2N.inj_succ, N.pow_succ_r'. rewrite <- N.div_div by (try apply N.pow_nonzero; lia). f_equal.
      rewrite N.mul_comm, N.div_add, N.div_small by lia. lia.
Qed.
Lemma be_le b : int_of Big b = int_of Little (rev b).
Proof.
  cbn [int_of]. rewrite <- (rev_involutive b) at 1. generalize (rev b). clear b. intros r.
  induction r as [|x r IH]; [reflexivity|]. cbn [rev fold_right]. rewrite fold_left_app. cbn [fold_left]. rewrite IH. lia.
Qed.
Lemma int_of_spec e b : (int_of e b < 256 ^ N.of_nat (length b))%N /\ int_bytes e (length b) (int_of e b) = b.
Proof.
  destruct e; cbn [int_bytes]; [apply le_digits|]. rewrite be_le. destruct (le_digits (rev b)) as [A B]. rewrite rev_length in *.
  split; [exact A|]. unfold int_bytes. rewrite B. apply rev_involutive.
Qed.
Lemma pieces_length sz n b : length (pieces sz n b) = n.
Proof. revert b. induction n as [|n IH]; intros b; cbn; [reflexivity|now rewrite IH]. Qed.
Lemma pieces_sizes sz n b : length b = n * sz -> Forall (fun p => length p = sz) (pieces sz n b).
Proof.
  revert b. induction n as [|n IH]; intros b L; cbn [pieces]; constructor.
  - rewrite firstn_length. cbn in L. lia.
  - apply IH. rewrite skipn_length. cbn in L. lia.
Qed.
Lemma pieces_concat sz n b : length b = n * sz -> concat (pieces sz n b) = b.
Proof.
  revert b. induction n as [|n IH]; intros b L; cbn [pieces concat].
  - now destruct b.
  - rewrite IH; [apply firstn_skipn|]. rewrite skipn_length. cbn in L. lia.
Qed.
Lemma pieces_nth sz n b k : k < n -> nth_error (pieces sz n b) k = Some (firstn sz (skipn (k * sz) b)).
Proof.
  revert b k. induction n as [|n IH]; intros b k H; [lia|]. destruct k as [|k]; [reflexivity|]. cbn [pieces nth_error].
  rewrite IH by lia. rewrite skipn_skipn'. do 3 f_equal.
Qed.
Lemma reinterpret_spec pl t : forall b, length b = size_of t -> of_type t (reinterpret pl t b) /\ memory pl t (reinterpret pl t b) = b.
Proof.
  induction t as [k|t IH n]; intros b L; cbn [reinterpret of_type memory size_of] in *.
  - subst k. apply int_of_spec.
  - assert (P : Forall (fun p => of_type t (reinterpret pl t p) /\ memory pl t (reinterpret pl t p) = p) (pieces (size_of t) n b)).
    { eapply Forall_impl; [|apply (pieces_sizes _ _ _ L)]. exact IH. }
    split; [split; [now rewrite map_length, pieces_length|]|].
    + rewrite Forall_map. eapply Forall_impl; [|exact P]. intros p Hp; exact (proj1 Hp).
    + rewrite map_map. rewrite <- (pieces_concat (size_of t) n b L) at 2. f_equal.
      clear - P. induction P as [|p l [_ H] P IHP]; cbn; [reflexivity|now rewrite H, IHP].
Qed.

(** C122. [as_fixed_size::<T>] succeeds exactly if the slice has the size of [T] and lies at an address that is a multiple of the alignment of [T],
    and then the value is the one of type [T] whose bytes in memory are those of the slice. *)
Lemma p_C122_any_type :
  forall (pl : platform) (t : fixed) (addr : nat) (data : list byte),
    (length data = size_of t /\ addr mod align_of pl t = 0 ->
       exists v, as_fixed_size_at pl t addr data = Ok v /\ of_type t v /\ memory pl t v = data) /\
    (length data <> size_of t \/ addr mod align_of pl t <> 0 ->
       as_fixed_size_at pl t addr data = Err EConversionError).
Proof.
  intros pl t addr data. unfold as_fixed_size_at. split.
  - intros [L A]. rewrite L, A, !Nat.eqb_refl. cbn [andb]. eexists. split; [reflexivity|]. now apply reinterpret_spec.
  - intros [H|H]; apply Nat.eqb_neq in H; rewrite H; [|reflexivity]. now rewrite andb_false_r.
Qed.
Lemma memory_length pl t : forall v, of_type t v -> length (memory pl t v) = size_of t.
Proof.
  induction t as [k|t IH n]; cbn [of_type memory size_of].
  - intros v _. unfold int_bytes. destruct (pf_endian pl); now rewrite ?rev_length, map_length, seq_length.
  - intros vs [L F]. rewrite <- L. cbn [fval] in vs. clear L n. induction F as [|v vs H F IHF]; cbn; [reflexivity|]. rewrite app_length, IH by assumption. cbn in IHF. lia.
Qed.
Lemma le_unique : forall k v, (v < 256 ^ N.of_nat k)%N -> int_of Little (map (fun i => byte_of_N ((v / 256 ^ N.of_nat i) mod 256)) (seq 0 k)) = v.
Proof.
  induction k as [|k IH]; intros v H; [cbn in *; lia|].
  cbn [seq map]. rewrite <- seq_shift, map_map.
  rewrite (map_ext _ (fun i => byte_of_N ((v / 256 / 256 ^ N.of_nat i) mod 256))).
  2: { intros i. do 2 f_equal. rewrite Nat2N.inj_succ, N.pow_succ_r'. rewrite N.div_div by (try apply N.pow_nonzero; lia). reflexivity. }
  rewrite Nat2N.inj_succ, N.pow_succ_r' in H.
  change (int_of Little (?x :: ?l)) with (N_of_byte x + 256 * int_of Little l)%N. rewrite IH by (apply N.div_lt_upper_bound; lia).
  rewrite N.pow_0_r, N.div_1_r, N_of_byte_of_N, N.mod_mod by lia. pose proof (N.div_mod v 256). lia.
Qed.
Lemma int_unique e k v : (v < 256 ^ N.of_nat k)%N -> int_of e (int_bytes e k v) = v.
Proof. intros H. unfold int_bytes. destruct e; [now apply le_unique|]. rewrite be_le, rev_involutive. now apply le_unique. Qed.
Lemma pieces_of_concat {A} (f : A -> list byte) sz (vs : list A) : Forall (fun v => length (f v) = sz) vs -> pieces sz (length vs) (concat (map f vs)) = map f vs.
Proof.
  induction 1 as [|v vs H F IH]; cbn [length pieces map concat]; [reflexivity|].
  rewrite firstn_app, firstn_all2, H, Nat.sub_diag by lia. cbn [firstn]. rewrite app_nil_r. f_equal.
  rewrite skipn_app, skipn_all2, H, Nat.sub_diag by lia. exact IH.
Qed.
Lemma reinterpret_memory pl t : forall v, of_type t v -> reinterpret pl t (memory pl t v) = v.
Proof.
  induction t as [k|t IH n]; cbn [of_type memory reinterpret].
  - apply int_unique.
  - intros vs [L F]. rewrite <- L. cbn [fval] in vs. clear L n. rewrite pieces_of_concat by (eapply Forall_impl; [|exact F]; apply memory_length).
    rewrite map_map. clear - IH F. induction F as [|v vs H F IHF]; cbn; [reflexivity|]. now rewrite IH, IHF.
Qed.

(** C122. The other way round: the bytes of any value, at an aligned address, are read as that value. *)
Lemma p_C122_reads_back :
  forall (pl : platform) (t : fixed) (addr : nat) (v : fval t),
    of_type t v -> addr mod align_of pl t = 0 -> as_fixed_size_at pl t addr (memory pl t v) = Ok v.
Proof.
  intros pl t addr v T A. unfold as_fixed_size_at. rewrite A, memory_length, !Nat.eqb_refl by assumption. cbn [andb]. now rewrite reinterpret_memory.
Qed.
Example ex_C122_reads_back :
  of_type (FArray (FInt 2) 2) [258%N; 3%N] /\ 6 mod align_of x86_64 (FArray (FInt 2) 2) = 0 /\ memory x86_64 (FArray (FInt 2) 2) [258%N; 3%N] = [x02; x01; x03; x00] /\
  as_fixed_size_at x86_64 (FArray (FInt 2) 2) 6 [x02; x01; x03; x00] = Ok [258%N; 3%N].
Proof. repeat split; try reflexivity. repeat constructor. Qed.

(** C122. For arrays of bytes, which is all the crate uses itself, the address does not matter. *)
Lemma p_C122_bytes_anywhere :
  forall (pl : platform) (n addr : nat) (data : list byte),
    sane pl -> as_fixed_size_at pl (FArray (FInt 1) n) addr data =
      match as_fixed_size n data with Ok b => Ok (map N_of_byte b) | Err e => Err e | Panic why => Panic why end.
Proof.
  intros pl n addr data [A1 _]. destruct (p_C38_as_fixed_size n data) as [Y N0]. unfold as_fixed_size_at. cbn [align_of size_of]. rewrite A1, Nat.mul_1_r.
  rewrite Nat.mod_1_r. cbn [Nat.eqb andb].
  destruct (Nat.eqb_spec (length data) n) as [E|E]; [|now rewrite (N0 E)]. rewrite (Y E). f_equal. cbn [reinterpret size_of].
  subst n. clear. induction data as [|x d IH]; [reflexivity|]. cbn [length pieces map firstn skipn]. rewrite IH. f_equal.
  destruct (pf_endian pl); cbn; lia.
Qed.

(** C122, refuted: whether the conversion succeeds is a matter of the bytes. For every type with an alignment greater than one and any bytes of the right
    number, it succeeds at one address and fails at another. *)
Lemma p_C122_depends_only_on_the_bytes_refuted :
  forall (pl : platform) (t : fixed) (data : list byte),
    2 <= align_of pl t -> length data = size_of t ->
    exists v, as_fixed_size_at pl t (align_of pl t) data = Ok v /\ as_fixed_size_at pl t (S (align_of pl t)) data = Err EConversionError.
Proof.
  intros pl t data A L. destruct (p_C122_any_type pl t (align_of pl t) data) as [(v & E & _) _]; [split; [exact L|apply Nat.mod_same; lia]|].
  exists v. split; [exact E|]. apply p_C122_any_type. right.
  replace (S (align_of pl t)) with (1 + 1 * align_of pl t) by lia. rewrite Nat.mod_add by lia. rewrite Nat.mod_small by lia. discriminate.
Qed.
Example ex_C122_depends : 2 <= align_of x86_64 (FInt 8) /\ length (repeat x07 8) = size_of (FInt 8).
Proof. cbn. split; [lia|reflexivity]. Qed.

Lemma sane_align pl t : sane pl -> proper t -> 1 <= align_of pl t /\ exists m, size_of t = m * align_of pl t.
Proof.
  intros [_ S]. induction t as [k|t IH n]; cbn [proper align_of size_of]; [apply S|].
  intros P. destruct (IH P) as [A (m & E)]. split; [exact A|]. exists (n * m). rewrite E. lia.
Qed.

(** C122. The elements of an array are what [as_fixed_size] makes of the parts of the slice. *)
Lemma p_C122_elements :
  forall (pl : platform) (t : fixed) (n addr : nat) (data : list byte) (vs : list (fval t)),
    sane pl -> proper t -> as_fixed_size_at pl (FArray t n) addr data = Ok vs ->
    length vs = n /\
    forall k, k < n ->
      exists v, nth_error vs k = Some v /\
        as_fixed_size_at pl t (addr + k * size_of t) (firstn (size_of t) (skipn (k * size_of t) data)) = Ok v.
Proof.
  intros pl t n addr data vs S P. destruct (sane_align pl t S P) as [A1 (m & Em)]. unfold as_fixed_size_at at 1. cbn [align_of size_of].
  destruct (Nat.eqb_spec (addr mod align_of pl t) 0) as [A|]; [|discriminate]. destruct (Nat.eqb_spec (length data) (n * size_of t)) as [L|]; [|discriminate].
  intros [= <-]. cbn [reinterpret size_of]. split; [now rewrite map_length, pieces_length|]. intros k K. rewrite nth_error_map, pieces_nth by exact K. cbn [option_map].
  eexists. split; [reflexivity|]. unfold as_fixed_size_at.
  replace (addr + k * size_of t) with (addr + (k * m) * align_of pl t) by (rewrite Em; lia). rewrite Nat.mod_add, A by lia.
  assert (Lf : length (firstn (size_of t) (skipn (k * size_of t) data)) = size_of t).
  { rewrite firstn_length, skipn_length, L. assert (k * size_of t + size_of t <= n * size_of t) by nia. lia. }
  now rewrite Lf, !Nat.eqb_refl.
Qed.
Example ex_C122_elements :
  sane x86_64 /\ proper (FInt 4) /\ as_fixed_size_at x86_64 (FArray (FInt 4) 2) 12 [x01; x00; x00; x00; xff; x00; x00; x00] = Ok [1%N; 255%N].
Proof.
  split; [|split; [cbn; lia|reflexivity]]. split; [reflexivity|]. intros k K. cbn. destruct (Nat.eqb_spec k 16) as [->|]; split; try lia; [now exists 2|exists 1; lia].
Qed.
