(** * SerdeFacts: facts about bytes, big-endian integers and the serde layer *)
From Coq Require Import Strings.String.
From Verif Require Import Base Serde Codec Universe Spec.
Open Scope N_scope.

(** ** Bytes *)
Lemma N_of_byte_lt b : N_of_byte b < 256.
Proof. unfold N_of_byte. pose proof (to_N_bounded b). lia. Qed.

Lemma byte_of_N_of_byte b : byte_of_N (N_of_byte b) = b.
Proof.
  unfold byte_of_N. rewrite N.mod_small by apply N_of_byte_lt.
  unfold N_of_byte. now rewrite of_to_N.
Qed.

Lemma N_of_byte_of_N n : N_of_byte (byte_of_N n) = n mod 256.
Proof.
  unfold byte_of_N, N_of_byte.
  destruct (Byte.of_N (n mod 256)) eqn:E.
  - now apply to_of_N.
  - apply of_N_None_iff in E.
    pose proof (N.mod_lt n 256). lia.
Qed.

Lemma byte_of_N_mod n : byte_of_N (n mod 256) = byte_of_N n.
Proof. unfold byte_of_N. now rewrite N.mod_mod by lia. Qed.

Lemma N_of_byte_inj a b : N_of_byte a = N_of_byte b -> a = b.
Proof.
  intros H. now rewrite <- (byte_of_N_of_byte a), <- (byte_of_N_of_byte b), H.
Qed.

Lemma byte_eqb_refl b : Byte.eqb b b = true.
Proof. now destruct (byte_eqb_spec b b) || (apply Byte.byte_dec_lb; reflexivity). Qed.

Lemma byte_eqb_eq a b : Byte.eqb a b = true <-> a = b.
Proof.
  split; [apply Byte.byte_dec_bl | apply Byte.byte_dec_lb].
Qed.

Lemma bytes_eqb_eq a b : bytes_eqb a b = true <-> a = b.
Proof.
  revert b. induction a as [|x a IH]; intros [|y b]; cbn; try easy.
  rewrite andb_true_iff, byte_eqb_eq, IH. split; [intros [-> ->] | intros [= -> ->]]; auto.
Qed.
Lemma bytes_eqb_refl a : bytes_eqb a a = true.
Proof. now apply bytes_eqb_eq. Qed.
Lemma bytes_eqb_neq a b : bytes_eqb a b = false <-> a <> b.
Proof.
  rewrite <- not_true_iff_false, bytes_eqb_eq. reflexivity.
Qed.

(** ** Big-endian integers *)
Lemma be_length k n : length (be k n) = k.
Proof.
  revert n. induction k as [|k IH]; intros n; cbn [be]; [reflexivity|].
  rewrite app_length, IH. cbn. lia.
Qed.

Lemma be_value_snoc l x : be_value (l ++ [x]) = be_value l * 256 + N_of_byte x.
Proof. unfold be_value. now rewrite fold_left_app. Qed.

Lemma be_value_lt l : be_value l < 256 ^ N.of_nat (length l).
Proof.
  induction l as [|x l IH] using rev_ind; [now cbn|].
  rewrite be_value_snoc, app_length, Nat.add_1_r, Nat2N.inj_succ, N.pow_succ_r'.
  pose proof (N_of_byte_lt x). nia.
Qed.

Lemma be_be_value l : be (length l) (be_value l) = l.
Proof.
  induction l as [|x l IH] using rev_ind; [reflexivity|].
  rewrite app_length, Nat.add_1_r. cbn [be]. rewrite be_value_snoc.
  pose proof (N_of_byte_lt x) as Hx.
  replace ((be_value l * 256 + N_of_byte x) / 256) with (be_value l).
  2:{ rewrite N.add_comm, N.div_add, N.div_small by lia. lia. }
  rewrite IH. f_equal. f_equal.
  rewrite <- byte_of_N_mod, N.add_comm, N.mod_add, N.mod_small by lia.
  apply byte_of_N_of_byte.
Qed.

Lemma be_value_be k n : be_value (be k n) = n mod 256 ^ N.of_nat k.
Proof.
  revert n. induction k as [|k IH]; intros n; cbn [be].
  - cbn. now rewrite N.mod_1_r.
  - rewrite be_value_snoc, IH, N_of_byte_of_N, Nat2N.inj_succ, N.pow_succ_r'.
    assert (256 ^ N.of_nat k <> 0) by (apply N.pow_nonzero; lia).
    rewrite N.mod_mul_r by lia. lia.
Qed.
Lemma be_value_be_small k n : n < 256 ^ N.of_nat k -> be_value (be k n) = n.
Proof. intros H. now rewrite be_value_be, N.mod_small. Qed.

Lemma be2 n : be 2 n = u16_bytes n.
Proof. reflexivity. Qed.
Lemma be4 n : be 4 n = u32_bytes n.
Proof.
  unfold u32_bytes. cbn [be bs map app].
  replace (n / 256 ^ 3) with (n / 256 / 256 / 256) by (rewrite !N.div_div by lia; reflexivity).
  replace (n / 256 ^ 2) with (n / 256 / 256) by (rewrite !N.div_div by lia; reflexivity).
  reflexivity.
Qed.
Lemma be8 n : be 8 n = u64_bytes n.
Proof.
  unfold u64_bytes. cbn [be bs map app].
  replace (n / 256 ^ 7) with (n / 256 / 256 / 256 / 256 / 256 / 256 / 256) by (rewrite !N.div_div by lia; reflexivity).
  replace (n / 256 ^ 6) with (n / 256 / 256 / 256 / 256 / 256 / 256) by (rewrite !N.div_div by lia; reflexivity).
  replace (n / 256 ^ 5) with (n / 256 / 256 / 256 / 256 / 256) by (rewrite !N.div_div by lia; reflexivity).
  replace (n / 256 ^ 4) with (n / 256 / 256 / 256 / 256) by (rewrite !N.div_div by lia; reflexivity).
  replace (n / 256 ^ 3) with (n / 256 / 256 / 256) by (rewrite !N.div_div by lia; reflexivity).
  replace (n / 256 ^ 2) with (n / 256 / 256) by (rewrite !N.div_div by lia; reflexivity).
  reflexivity.
Qed.

Lemma u16_bytes_value l : length l = 2%nat -> u16_bytes (be_value l) = l.
Proof. intros H. rewrite <- be2, <- H. apply be_be_value. Qed.
Lemma u32_bytes_value l : length l = 4%nat -> u32_bytes (be_value l) = l.
Proof. intros H. rewrite <- be4, <- H. apply be_be_value. Qed.
Lemma u64_bytes_value l : length l = 8%nat -> u64_bytes (be_value l) = l.
Proof. intros H. rewrite <- be8, <- H. apply be_be_value. Qed.

(** ** Writer *)
Lemma bincode_write_app a b : bincode_write (a ++ b) = bincode_write a ++ bincode_write b.
Proof. apply flat_map_app. Qed.
Lemma bincode_write_u8s l : bincode_write (map EvU8 l) = l.
Proof. induction l as [|x l IH]; [reflexivity|]. cbn. now f_equal. Qed.

Lemma bincode_size_app a b : bincode_size (a ++ b) = (bincode_size a + bincode_size b)%nat.
Proof.
  unfold bincode_size. induction a as [|e a IH]; [reflexivity|].
  cbn [app fold_right]. rewrite IH. lia.
Qed.

(** bincode's size counter agrees with its writer. *)
Lemma bincode_size_write l : bincode_size l = length (bincode_write l).
Proof.
  induction l as [|e l IH]; [reflexivity|].
  cbn [bincode_size fold_right bincode_write flat_map]. rewrite app_length.
  fold (bincode_size l) (bincode_write l). rewrite IH.
  destruct e; cbn [size_ev write_ev]; rewrite ?be_length; reflexivity.
Qed.

(** ** Reader loops *)

(** [read_many_u8] is the loop it stands for: one iteration at a time. *)
Lemma read_many_u8_step e n len b :
  read_many_u8 e n len b =
    if n =? 0 then Ok ([], Access len b)
    else let* (x, s) := next_required de_u8 e (Access len b) in
         let* (l, s) := read_many_u8 e (N.pred n) (acc_len s) (acc_rest s) in
         Ok (x :: l, s).
Proof.
  destruct b as [|x b]; cbn [read_many_u8];
    destruct (n =? 0); try reflexivity;
    unfold next_required, next_element; cbn [acc_len acc_rest];
    destruct (len =? 0); try reflexivity.
Qed.

(** [read_all_u8] is [while let Some(x) = seq.next_element()? { v.push(x) }]. *)
Lemma read_all_u8_step len b :
  read_all_u8 len b =
    let* (o, s) := next_element de_u8 (Access len b) in
    match o with
    | None => Ok ([], s)
    | Some x => let* (l, s) := read_all_u8 (acc_len s) (acc_rest s) in Ok (x :: l, s)
    end.
Proof.
  destruct b as [|x b]; cbn [read_all_u8];
    unfold next_element; cbn [acc_len acc_rest];
    destruct (len =? 0); reflexivity.
Qed.

(** [rawend_loop] is [while let Ok(item) = seq.next_element() { match item { Some(i) => push, None => break } }]. *)
Lemma rawend_loop_step len b :
  rawend_loop len b =
    match next_element de_u8 (Access len b) with
    | Ok (Some x, s) => let '(l, rest) := rawend_loop (acc_len s) (acc_rest s) in (x :: l, rest)
    | Ok (None, s) => ([], acc_rest s)
    | _ => ([], b)
    end.
Proof.
  destruct b as [|x b]; cbn [rawend_loop];
    unfold next_element; cbn [acc_len acc_rest];
    destruct (len =? 0); reflexivity.
Qed.

Lemma read_many_u8_spec e n len b :
  n <= len ->
  read_many_u8 e n len b =
    if N.of_nat (length b) <? n then Err EEof
    else Ok (firstn (N.to_nat n) b, Access (len - n) (skipn (N.to_nat n) b)).
Proof.
  revert n len. induction b as [|x b IH]; intros n len Hle; cbn [read_many_u8].
  - destruct (N.eqb_spec n 0) as [->|Hn].
    + cbn. now rewrite N.sub_0_r.
    + destruct (N.eqb_spec len 0) as [->|]; [lia|].
      cbn [length]. destruct (N.ltb_spec (N.of_nat 0) n); [reflexivity|lia].
  - destruct (N.eqb_spec n 0) as [->|Hn].
    + cbn [N.to_nat firstn skipn]. destruct (N.ltb_spec (N.of_nat (length (x :: b))) 0); [lia|].
      now rewrite N.sub_0_r.
    + destruct (N.eqb_spec len 0) as [->|]; [lia|].
      rewrite IH by lia. cbn [length].
      destruct (N.ltb_spec (N.of_nat (length b)) (N.pred n)) as [H|H];
        destruct (N.ltb_spec (N.of_nat (S (length b))) n) as [H'|H']; try lia; [reflexivity|].
      cbn [bind].
      replace (N.to_nat n) with (S (N.to_nat (N.pred n))) by lia.
      cbn [firstn skipn]. do 3 f_equal. lia.
Qed.

Lemma read_all_u8_spec len b :
  read_all_u8 len b =
    if N.of_nat (length b) <? len then Err EEof
    else Ok (firstn (N.to_nat len) b, Access 0 (skipn (N.to_nat len) b)).
Proof.
  revert len. induction b as [|x b IH]; intros len; cbn [read_all_u8].
  - destruct (N.eqb_spec len 0) as [->|Hn]; [reflexivity|].
    cbn [length]. destruct (N.ltb_spec (N.of_nat 0) len); [reflexivity|lia].
  - destruct (N.eqb_spec len 0) as [->|Hn].
    + destruct (N.ltb_spec (N.of_nat (length (x :: b))) 0); [lia|reflexivity].
    + rewrite IH. cbn [length].
      destruct (N.ltb_spec (N.of_nat (length b)) (N.pred len)) as [H|H];
        destruct (N.ltb_spec (N.of_nat (S (length b))) len) as [H'|H']; try lia; [reflexivity|].
      cbn [bind].
      now replace (N.to_nat len) with (S (N.to_nat (N.pred len))) by lia.
Qed.

Lemma rawend_loop_spec len b :
  rawend_loop len b =
    (firstn (N.to_nat (N.min len (N.of_nat (length b)))) b,
     skipn (N.to_nat (N.min len (N.of_nat (length b)))) b).
Proof.
  revert len. induction b as [|x b IH]; intros len; cbn [rawend_loop].
  - destruct (N.eqb_spec len 0) as [->|Hn]; [reflexivity|].
    now rewrite firstn_nil, skipn_nil.
  - destruct (N.eqb_spec len 0) as [->|Hn].
    + now rewrite N.min_0_l.
    + rewrite IH. cbn [length].
      replace (N.min len (N.of_nat (S (length b)))) with (N.succ (N.min (N.pred len) (N.of_nat (length b)))) by lia.
      now rewrite N2Nat.inj_succ.
Qed.

(** ** Length-prefixed blobs: the common shape of VarLen16/32/64, Vec, NestedPacket *)

(** Decoding of a [k]-byte length followed by that many bytes. *)
Definition de_blob (k : nat) (b : list byte) : dres (list byte) :=
  if (length b <? k)%nat then Err EEof
  else
    let n := be_value (firstn k b) in
    let r := skipn k b in
    if N.of_nat (length r) <? n then Err EEof
    else Ok (firstn (N.to_nat n) r, skipn (N.to_nat n) r).

Lemma be_value_firstn_lt k b : (k <= length b)%nat -> be_value (firstn k b) < 256 ^ N.of_nat k.
Proof.
  intros H. pose proof (be_value_lt (firstn k b)) as Hlt.
  now rewrite firstn_length_le in Hlt by lia.
Qed.

Lemma de_varlen16_blob b :
  de_varlen16 b = let* (v, r) := de_blob 2 b in Ok (VarLen16 v, r).
Proof.
  unfold de_varlen16, deserialize_tuple, next_required, next_element, de_u16, de_uint, de_blob.
  cbn [acc_len acc_rest]. change (N.shiftl 1 16 =? 0) with false. cbn iota.
  destruct (Nat.ltb_spec (length b) 2) as [H|H]; [reflexivity|].
  cbn [bind acc_len acc_rest].
  pose proof (be_value_firstn_lt 2 b H) as Hlt. change (256 ^ N.of_nat 2) with 65536 in Hlt.
  rewrite read_many_u8_spec by (change (N.pred (N.shiftl 1 16)) with 65535; lia).
  destruct (_ <? _); reflexivity.
Qed.

Lemma de_varlen32_blob b :
  de_varlen32 b = let* (v, r) := de_blob 4 b in Ok (VarLen32 v, r).
Proof.
  unfold de_varlen32, deserialize_tuple, next_required, next_element, de_u32, de_uint, de_blob.
  cbn [acc_len acc_rest]. change (N.shiftl 1 32 =? 0) with false. cbn iota.
  destruct (Nat.ltb_spec (length b) 4) as [H|H]; [reflexivity|].
  cbn [bind acc_len acc_rest].
  pose proof (be_value_firstn_lt 4 b H) as Hlt. change (256 ^ N.of_nat 4) with 4294967296 in Hlt.
  rewrite read_many_u8_spec by (change (N.pred (N.shiftl 1 32)) with 4294967295; lia).
  destruct (_ <? _); reflexivity.
Qed.

Lemma de_vec_u8_blob b : de_vec_u8 b = de_blob 8 b.
Proof.
  unfold de_vec_u8, deserialize_tuple, de_u64, de_uint, de_blob.
  destruct (Nat.ltb_spec (length b) 8) as [H|H]; [reflexivity|].
  cbn [bind acc_len acc_rest].
  rewrite read_all_u8_spec. destruct (_ <? _); reflexivity.
Qed.

Lemma de_varlen64_blob b :
  de_varlen64 b = let* (v, r) := de_blob 8 b in Ok (VarLen64 v, r).
Proof. unfold de_varlen64. now rewrite de_vec_u8_blob. Qed.

Lemma de_nested_blob b :
  de_nested b = let* (v, r) := de_blob 2 b in Ok (NestedPacket (Packet v), r).
Proof. unfold de_nested. rewrite de_varlen16_blob. destruct (de_blob 2 b) as [[v r]| |]; reflexivity. Qed.

Lemma de_blob_ok k b v r :
  de_blob k b = Ok (v, r) ->
  exists p, b = p ++ v ++ r /\ length p = k /\ be_value p = len v.
Proof.
  unfold de_blob. destruct (Nat.ltb_spec (length b) k) as [H|H]; [discriminate|].
  destruct (N.ltb_spec (N.of_nat (length (skipn k b))) (be_value (firstn k b))) as [H'|H']; [discriminate|].
  intros [= <- <-]. exists (firstn k b).
  rewrite firstn_skipn, firstn_skipn. split; [reflexivity|].
  split; [now apply firstn_length_le|].
  unfold len. rewrite firstn_length. lia.
Qed.

Lemma de_blob_build k p v r :
  length p = k -> be_value p = len v -> de_blob k (p ++ v ++ r) = Ok (v, r).
Proof.
  intros Hp Hv. unfold de_blob.
  rewrite app_length, app_length.
  destruct (Nat.ltb_spec (length p + (length v + length r)) k) as [H|H]; [lia|].
  rewrite <- Hp, firstn_app, Nat.sub_diag, firstn_all, firstn_O, app_nil_r.
  rewrite skipn_app, Nat.sub_diag, skipn_all. cbn [app skipn].
  rewrite Hv, app_length. unfold len.
  destruct (N.ltb_spec (N.of_nat (length v + length r)) (N.of_nat (length v))) as [H'|H']; [lia|].
  rewrite Nat2N.id.
  now rewrite firstn_app, Nat.sub_diag, firstn_all, firstn_O, app_nil_r,
    skipn_app, Nat.sub_diag, skipn_all.
Qed.

Lemma de_blob_be k n v r :
  n = len v -> n < 256 ^ N.of_nat k -> de_blob k (be k n ++ v ++ r) = Ok (v, r).
Proof.
  intros -> H. apply de_blob_build; [apply be_length|now apply be_value_be_small].
Qed.

Lemma de_blob_no_panic k b p : de_blob k b <> Panic p.
Proof.
  unfold de_blob. destruct (_ <? _)%nat; [discriminate|].
  destruct (_ <? _); discriminate.
Qed.
Lemma de_blob_err k b e : de_blob k b = Err e -> e = EEof.
Proof.
  unfold de_blob. destruct (_ <? _)%nat; [congruence|].
  destruct (_ <? _); congruence.
Qed.

(** Succeeds exactly when the prefix and the announced bytes are there. *)
Lemma de_blob_ok_iff k b :
  is_ok (de_blob k b) = true <->
  (k <= length b)%nat /\ be_value (firstn k b) <= N.of_nat (length b - k).
Proof.
  unfold de_blob. destruct (Nat.ltb_spec (length b) k) as [H|H].
  - cbn. split; [discriminate|lia].
  - rewrite skipn_length.
    destruct (N.ltb_spec (N.of_nat (length b - k)) (be_value (firstn k b))) as [H'|H'];
      cbn; split; try discriminate; try lia; auto.
Qed.
