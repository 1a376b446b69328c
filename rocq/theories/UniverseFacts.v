(** * UniverseFacts: the facts about every payload type, by induction over types *)
From Coq Require Import Strings.String.
From Verif Require Import Base Serde Codec Universe Spec SerdeFacts CodecFacts Utf8Facts.
Open Scope N_scope.

Definition custom {A} (o : outcome A) : Prop := exists m, o = Err (ECustom m).

(** What is proved of each decoder/serializer pair. *)
Record facts (t : ty) : Prop := {
  (* a decoded value: consumed bytes [c], range, re-encodable; [c] determines the result *)
  f_ok : forall b v r, de t b = Ok (v, r) ->
    exists c, b = c ++ r /\ in_range t v /\ encodable t v /\ transmitted t v = v /\
      (length (layout t v) <= length c)%nat /\
      (has_auth t = false -> length (layout t v) = length c) /\
      (has_auth t = false -> has_introduction t = false -> layout t v = c) /\
      (self_delimiting t = true -> forall y, de t (c ++ y) = Ok (v, y));
  f_panic : forall b p, self_delimiting t = true -> de t b = Panic p -> forall y, de t (b ++ y) = Panic p;
  f_no_panic : forall b p, has_auth t = false -> de t b <> Panic p;
  f_round : forall v y, in_range t v -> encodable t v -> self_delimiting t = true ->
    de t (layout t v ++ y) = Ok (transmitted t v, y);
  f_round_end : forall v, in_range t v -> encodable t v -> raw_at_end_only t = true ->
    de t (layout t v) = Ok (transmitted t v, []);
  f_ser : forall v, in_range t v ->
    (encodable t v /\ exists evs, ser t v = Ok evs /\ bincode_write evs = layout t v) \/
    (~ encodable t v /\ custom (ser t v));
  f_min : forall v, in_range t v -> encodable t v -> (min_size t <= length (layout t v))%nat;
  f_transmitted : forall v, layout t (transmitted t v) = layout t v
}.

Record factss (fs : tys) : Prop := {
  fs_ok : forall b v r, des_plain fs b = Ok (v, r) ->
    exists c, b = c ++ r /\ in_ranges fs v /\ encodables fs v /\ transmitteds fs v = v /\
      (length (layouts fs v) <= length c)%nat /\
      (have_auth fs = false -> length (layouts fs v) = length c) /\
      (have_auth fs = false -> have_introduction fs = false -> layouts fs v = c) /\
      (all_self_delimiting fs = true -> forall y, des_plain fs (c ++ y) = Ok (v, y));
  fs_panic : forall b p, all_self_delimiting fs = true -> des_plain fs b = Panic p ->
    forall y, des_plain fs (b ++ y) = Panic p;
  fs_no_panic : forall b p, have_auth fs = false -> des_plain fs b <> Panic p;
  fs_round : forall v y, in_ranges fs v -> encodables fs v -> all_self_delimiting fs = true ->
    des_plain fs (layouts fs v ++ y) = Ok (transmitteds fs v, y);
  fs_round_end : forall v, in_ranges fs v -> encodables fs v -> raw_at_end_onlys fs = true ->
    des_plain fs (layouts fs v) = Ok (transmitteds fs v, []);
  fs_ser : forall v, in_ranges fs v ->
    (encodables fs v /\ exists evs, sers fs v = Ok evs /\ bincode_write evs = layouts fs v) \/
    (~ encodables fs v /\ custom (sers fs v));
  fs_min : forall v, in_ranges fs v -> encodables fs v -> (min_sizes fs <= length (layouts fs v))%nat;
  fs_transmitted : forall v, layouts fs (transmitteds fs v) = layouts fs v
}.

(** ** Leaf types of fixed size *)

Lemma app_length_ge {A} (a b : list A) n : length a = n -> (length (a ++ b) <? n)%nat = false.
Proof. intros <-. rewrite app_length. apply Nat.ltb_ge. lia. Qed.

(** A leaf type whose decoder reads exactly [n] bytes through [f]. *)
Lemma fixed_facts (t : ty) (n : nat) (f : list byte -> tval t) :
  (forall b, de t b = if (length b <? n)%nat then Err EEof else Ok (f b, skipn n b)) ->
  (forall b y, (n <= length b)%nat -> f (b ++ y) = f b) ->
  (forall b, (n <= length b)%nat -> layout t (f b) = firstn n b) ->
  (forall b, in_range t (f b) /\ encodable t (f b)) ->
  (forall v, in_range t v -> encodable t v -> length (layout t v) = n /\ f (layout t v) = v) ->
  (forall v, in_range t v ->
    (encodable t v /\ exists evs, ser t v = Ok evs /\ bincode_write evs = layout t v) \/
    (~ encodable t v /\ custom (ser t v))) ->
  (forall v, transmitted t v = v) ->
  min_size t = n ->
  facts t.
Proof.
  intros Hde Hext Hlay Hrange Hround Hser Htr Hmin. constructor.
  - intros b v r. rewrite Hde. destruct (Nat.ltb_spec (length b) n) as [H|H]; [discriminate|].
    intros [= <- <-]. exists (firstn n b). rewrite firstn_skipn.
    assert (Hn : length (firstn n b) = n) by (now apply firstn_length_le).
    rewrite Hlay by lia.
    destruct (Hrange b). repeat split; auto.
    intros _ y. rewrite Hde, (app_length_ge _ y n Hn), (skipn_app_exact n _ y Hn).
    do 2 f_equal.
    rewrite (Hext (firstn n b) y) by lia.
    rewrite <- (firstn_skipn n b) at 2. now rewrite Hext by lia.
  - intros b p _ H. rewrite Hde in H. destruct (_ <? _)%nat; discriminate.
  - intros b p _ H. rewrite Hde in H. destruct (_ <? _)%nat; discriminate.
  - intros v y Hr He _. destruct (Hround v Hr He) as [Hl Hv].
    rewrite Hde, app_length_ge, skipn_app_exact, Hext, Hv, Htr by lia. reflexivity.
  - intros v Hr He _. destruct (Hround v Hr He) as [Hl Hv].
    pose proof (Hde (layout t v)) as E. rewrite Hl, Nat.ltb_irrefl in E.
    rewrite E, Hv, Htr, <- Hl, skipn_all. reflexivity.
  - exact Hser.
  - intros v Hr He. destruct (Hround v Hr He). lia.
  - intros v. now rewrite Htr.
Qed.

(** Positions below the length do not see what follows. *)
Lemma byte_at_app b y i : (i < length b)%nat -> byte_at (b ++ y) i = byte_at b i.
Proof. intros H. apply app_nth1. lia. Qed.
Lemma u16_at_app b y i : (i + 2 <= length b)%nat -> u16_at (b ++ y) i = u16_at b i.
Proof. intros H. unfold u16_at, n_at. now rewrite !byte_at_app by lia. Qed.
Lemma u64_at_app b y i : (i + 8 <= length b)%nat -> u64_at (b ++ y) i = u64_at b i.
Proof. intros H. unfold u64_at, n_at. now rewrite !byte_at_app by lia. Qed.
Lemma address_at_app b y i : (i + 6 <= length b)%nat -> address_at (b ++ y) i = address_at b i.
Proof. intros H. unfold address_at. rewrite u16_at_app by lia. now rewrite !byte_at_app by lia. Qed.

Lemma facts_u8 : facts TU8.
Proof.
  apply (fixed_facts TU8 1 (fun b => byte_at b 0)); try easy.
  - exact de_u8_at.
  - intros b y H. now rewrite byte_at_app.
  - intros [|x b] H; [cbn in H; lia|reflexivity].
  - intros v _. left. split; [exact I|]. now exists [EvU8 v].
Qed.

Lemma be_value_firstn_app k b y :
  (k <= length b)%nat -> be_value (firstn k (b ++ y)) = be_value (firstn k b).
Proof.
  intros H. rewrite firstn_app. replace (k - length b)%nat with O by lia.
  now rewrite firstn_O, app_nil_r.
Qed.


Lemma pow_256 k : 256 ^ N.of_nat k = 2 ^ (8 * N.of_nat k).
Proof. change 256 with (2 ^ 8). now rewrite <- N.pow_mul_r. Qed.

Lemma facts_u16 : facts TU16.
Proof.
  apply (fixed_facts TU16 2 (fun b => be_value (firstn 2 b) mod 2 ^ 16)); try easy.
  - intros b. cbn [de]. unfold de_u16, de_uint. destruct (Nat.ltb_spec (length b) 2); [reflexivity|].
    now rewrite N.mod_small by (apply (be_value_firstn_lt 2 b); lia).
  - intros b y H. now rewrite be_value_firstn_app.
  - intros b H. cbn [layout]. rewrite N.mod_small by (apply (be_value_firstn_lt 2 b); lia).
    apply u16_bytes_value, firstn_length_le. lia.
  - intros b. split; [now apply N.mod_lt|exact I].
  - intros v Hv _. cbn [layout in_range tval] in *. split; [reflexivity|].
    rewrite <- be2. change (firstn 2 (be 2 v)) with (be 2 v).
    rewrite be_value_be_small, N.mod_small by assumption. reflexivity.
  - intros v _. left. split; [exact I|]. exists [EvU16 v]. split; [reflexivity|].
    cbn [bincode_write flat_map write_ev]. now rewrite app_nil_r, be2.
Qed.

Lemma facts_u32 : facts TU32.
Proof.
  apply (fixed_facts TU32 4 (fun b => be_value (firstn 4 b) mod 2 ^ 32)); try easy.
  - intros b. cbn [de]. unfold de_u32, de_uint. destruct (Nat.ltb_spec (length b) 4); [reflexivity|].
    now rewrite N.mod_small by (apply (be_value_firstn_lt 4 b); lia).
  - intros b y H. now rewrite be_value_firstn_app.
  - intros b H. cbn [layout]. rewrite N.mod_small by (apply (be_value_firstn_lt 4 b); lia).
    apply u32_bytes_value, firstn_length_le. lia.
  - intros b. split; [now apply N.mod_lt|exact I].
  - intros v Hv _. cbn [layout in_range tval] in *. split; [reflexivity|].
    rewrite <- be4. change (firstn 4 (be 4 v)) with (be 4 v).
    rewrite be_value_be_small, N.mod_small by assumption. reflexivity.
  - intros v _. left. split; [exact I|]. exists [EvU32 v]. split; [reflexivity|].
    cbn [bincode_write flat_map write_ev]. now rewrite app_nil_r, be4.
Qed.

Lemma facts_u64 : facts TU64.
Proof.
  apply (fixed_facts TU64 8 (fun b => be_value (firstn 8 b) mod 2 ^ 64)); try easy.
  - intros b. cbn [de]. unfold de_u64, de_uint. destruct (Nat.ltb_spec (length b) 8); [reflexivity|].
    now rewrite N.mod_small by (apply (be_value_firstn_lt 8 b); lia).
  - intros b y H. now rewrite be_value_firstn_app.
  - intros b H. cbn [layout]. rewrite N.mod_small by (apply (be_value_firstn_lt 8 b); lia).
    apply u64_bytes_value, firstn_length_le. lia.
  - intros b. split; [now apply N.mod_lt|exact I].
  - intros v Hv _. cbn [layout in_range tval] in *. split; [reflexivity|].
    rewrite <- be8. change (firstn 8 (be 8 v)) with (be 8 v).
    rewrite be_value_be_small, N.mod_small by assumption. reflexivity.
  - intros v _. left. split; [exact I|]. exists [EvU64 v]. split; [reflexivity|].
    cbn [bincode_write flat_map write_ev]. now rewrite app_nil_r, be8.
Qed.

Lemma bits_layout_to_u8 b : bits_layout b = [bits_to_u8 b].
Proof. destruct b as [[] [] [] [] [] [] [] []]; reflexivity. Qed.
Lemma bits_to_from x : bits_to_u8 (bits_from_u8 x) = x.
Proof. destruct x; reflexivity. Qed.
Lemma bits_from_to b : bits_from_u8 (bits_to_u8 b) = b.
Proof. destruct b as [[] [] [] [] [] [] [] []]; reflexivity. Qed.

Lemma facts_bits : facts TBits.
Proof.
  apply (fixed_facts TBits 1 (fun b => bits_from_u8 (byte_at b 0))); try easy.
  - exact de_bits_at.
  - intros b y H. now rewrite byte_at_app.
  - intros [|x b] H; [cbn in H; lia|]. cbn [layout byte_at nth firstn].
    now rewrite bits_layout_to_u8, bits_to_from.
  - intros v _ _. cbn [layout]. rewrite bits_layout_to_u8. split; [reflexivity|]. apply bits_from_to.
  - intros v _. left. split; [exact I|]. eexists. split; [reflexivity|].
    cbn [layout]. rewrite bits_layout_to_u8. reflexivity.
Qed.

Lemma ser_address_ok a : ipv4 a -> exists evs, ser_address a = Ok evs /\ bincode_write evs = address_layout a.
Proof.
  destruct a as [x0 x1 x2 x3 p|]; [|intros []]. intros _. eexists. split; [reflexivity|].
  cbn. reflexivity.
Qed.
Lemma ser_address_err a : ~ ipv4 a -> custom (ser_address a).
Proof. destruct a; [intros []; exact I|]. intros _. eexists. reflexivity. Qed.
Lemma ipv4_dec a : ipv4 a \/ ~ ipv4 a.
Proof. destruct a; [left; exact I|right; intros []]. Qed.

Lemma facts_address : facts TAddress.
Proof.
  apply (fixed_facts TAddress 6 (fun b => address_at b 0)); try easy.
  - exact de_address_at.
  - intros b y H. now apply address_at_app.
  - intros b H. exact (address_layout_at b 0 H).
  - intros b. split; [apply u16_at_lt|exact I].
  - intros v Hr He. split; [now apply address_layout_length|].
    cbn [layout]. rewrite <- (app_nil_r (address_layout v)). now apply address_at_layout.
  - intros v _. cbn [encodable ser layout]. destruct (ipv4_dec v) as [H|H].
    + left. split; [exact H|now apply ser_address_ok].
    + right. split; [exact H|now apply ser_address_err].
Qed.

Lemma facts_time : facts TTime.
Proof.
  apply (fixed_facts TTime 8 (fun b => TimeDistribution (u64_at b 0))); try easy.
  - exact de_time_at.
  - intros b y H. now rewrite u64_at_app.
  - intros b H. cbn [layout global_time]. rewrite u64_at_value by lia.
    apply u64_bytes_value. rewrite firstn_length_le; cbn [skipn]; lia.
  - intros b. split; [|exact I]. cbn [in_range global_time]. unfold u64_at, n_at.
    pose proof (N_of_byte_lt (byte_at b 0)). pose proof (N_of_byte_lt (byte_at b (0 + 1))).
    pose proof (N_of_byte_lt (byte_at b (0 + 2))). pose proof (N_of_byte_lt (byte_at b (0 + 3))).
    pose proof (N_of_byte_lt (byte_at b (0 + 4))). pose proof (N_of_byte_lt (byte_at b (0 + 5))).
    pose proof (N_of_byte_lt (byte_at b (0 + 6))). pose proof (N_of_byte_lt (byte_at b (0 + 7))).
    change (256 ^ 7) with 72057594037927936. change (256 ^ 6) with 281474976710656.
    change (256 ^ 5) with 1099511627776. change (256 ^ 4) with 4294967296.
    change (256 ^ 3) with 16777216. change (256 ^ 2) with 65536.
    change (2 ^ 64) with 18446744073709551616. lia.
  - intros [v] Hv _. cbn [layout in_range global_time] in *. split; [reflexivity|]. f_equal.
    rewrite u64_at_value by (cbn; lia). cbn [skipn].
    rewrite <- be8. change (firstn 8 (be 8 v)) with (be 8 v). now apply be_value_be_small.
  - intros [v] _. left. split; [exact I|]. eexists. split; [reflexivity|].
    cbn [bincode_write flat_map write_ev app layout global_time]. now rewrite app_nil_r, be8.
Qed.

(** Re-assembling consecutive pieces. *)
Lemma pieces_14 (b : list byte) : (14 <= length b)%nat ->
  firstn 6 b ++ firstn 6 (skipn 6 b) ++ firstn 2 (skipn 12 b) = firstn 14 b.
Proof.
  intros H. change 14%nat with (6 + (6 + 2))%nat. rewrite firstn_plus. f_equal.
  rewrite firstn_plus, skipn_skipn'. reflexivity.
Qed.

Lemma skipn_address a r : ipv4 a -> skipn 6 (address_layout a ++ r) = r.
Proof. intros H. apply skipn_app_exact. now apply address_layout_length. Qed.

Lemma address_at_second a b r i :
  ipv4 a -> b = address_layout a ++ r -> address_at b (6 + i) = address_at r i.
Proof.
  intros Ha ->. rewrite <- address_at_skipn. now rewrite skipn_address.
Qed.
Lemma u16_at_second a b r i :
  ipv4 a -> b = address_layout a ++ r -> u16_at b (6 + i) = u16_at r i.
Proof.
  intros Ha ->. rewrite <- u16_at_skipn. now rewrite skipn_address.
Qed.
Lemma byte_at_second a b r i :
  ipv4 a -> b = address_layout a ++ r -> byte_at b (6 + i) = byte_at r i.
Proof.
  intros Ha ->. rewrite <- byte_at_skipn. now rewrite skipn_address.
Qed.

Lemma facts_puncture : facts TPuncture.
Proof.
  apply (fixed_facts TPuncture 14 puncture_of); try easy.
  - exact de_puncture_at.
  - intros b y H. unfold puncture_of. rewrite !address_at_app, u16_at_app by lia. reflexivity.
  - intros b H. cbn [layout puncture_of pu_lan_walker_address pu_wan_walker_address pu_identifier].
    rewrite !address_layout_at, u16_layout_at by lia. cbn [skipn]. now apply pieces_14.
  - intros b. split; [|now split]. repeat split; apply u16_at_lt.
  - intros [a1 a2 n] (H1 & H2 & H3) (E1 & E2).
    cbn [layout pu_lan_walker_address pu_wan_walker_address pu_identifier] in *.
    split; [rewrite !app_length, !address_layout_length by assumption; reflexivity|].
    unfold puncture_of. f_equal.
    + now apply address_at_layout.
    + rewrite (address_at_second a1 _ _ 0 E1 eq_refl). now apply address_at_layout.
    + rewrite (u16_at_second a1 _ _ 6 E1 eq_refl).
      rewrite (u16_at_second a2 _ _ 0 E2 eq_refl).
      rewrite <- (app_nil_r (u16_bytes n)). now apply u16_at_layout.
  - intros [a1 a2 n] _.
    cbn [encodable layout ser ser_puncture pu_lan_walker_address pu_wan_walker_address pu_identifier].
    unfold ser_puncture. cbn [ser_seq pu_lan_walker_address pu_wan_walker_address pu_identifier bind].
    destruct (ipv4_dec a1) as [H1|H1].
    2:{ right. split; [tauto|]. destruct (ser_address_err a1 H1) as [m ->]. now exists m. }
    destruct (ser_address_ok a1 H1) as (e1 & -> & W1). cbn [bind].
    destruct (ipv4_dec a2) as [H2|H2].
    2:{ right. split; [tauto|]. destruct (ser_address_err a2 H2) as [m ->]. now exists m. }
    destruct (ser_address_ok a2 H2) as (e2 & -> & W2). cbn [bind].
    left. split; [auto|]. eexists. split; [reflexivity|].
    rewrite !bincode_write_app, W1, W2. cbn [bincode_write flat_map write_ev app].
    rewrite ?app_nil_r, be2. reflexivity.
Qed.

Lemma facts_puncture_request : facts TPunctureRequest.
Proof.
  apply (fixed_facts TPunctureRequest 14 puncture_request_of); try easy.
  - exact de_puncture_request_at.
  - intros b y H. unfold puncture_request_of. rewrite !address_at_app, u16_at_app by lia. reflexivity.
  - intros b H. cbn [layout puncture_request_of pr_lan_walker_address pr_wan_walker_address pr_identifier].
    rewrite !address_layout_at, u16_layout_at by lia. cbn [skipn]. now apply pieces_14.
  - intros b. split; [|now split]. repeat split; apply u16_at_lt.
  - intros [a1 a2 n] (H1 & H2 & H3) (E1 & E2).
    cbn [layout pr_lan_walker_address pr_wan_walker_address pr_identifier] in *.
    split; [rewrite !app_length, !address_layout_length by assumption; reflexivity|].
    unfold puncture_request_of. f_equal.
    + now apply address_at_layout.
    + rewrite (address_at_second a1 _ _ 0 E1 eq_refl). now apply address_at_layout.
    + rewrite (u16_at_second a1 _ _ 6 E1 eq_refl).
      rewrite (u16_at_second a2 _ _ 0 E2 eq_refl).
      rewrite <- (app_nil_r (u16_bytes n)). now apply u16_at_layout.
  - intros [a1 a2 n] _.
    cbn [encodable layout ser ser_puncture_request pr_lan_walker_address pr_wan_walker_address pr_identifier].
    unfold ser_puncture_request. cbn [ser_seq pr_lan_walker_address pr_wan_walker_address pr_identifier bind].
    destruct (ipv4_dec a1) as [H1|H1].
    2:{ right. split; [tauto|]. destruct (ser_address_err a1 H1) as [m ->]. now exists m. }
    destruct (ser_address_ok a1 H1) as (e1 & -> & W1). cbn [bind].
    destruct (ipv4_dec a2) as [H2|H2].
    2:{ right. split; [tauto|]. destruct (ser_address_err a2 H2) as [m ->]. now exists m. }
    destruct (ser_address_ok a2 H2) as (e2 & -> & W2). cbn [bind].
    left. split; [auto|]. eexists. split; [reflexivity|].
    rewrite !bincode_write_app, W1, W2. cbn [bincode_write flat_map write_ev app].
    rewrite ?app_nil_r, be2. reflexivity.
Qed.

(** ** Length-prefixed types *)

(** A leaf type decoded as a [k]-byte length and that many bytes, wrapped by [mk]. *)
Lemma blob_facts (t : ty) (k : nat) (mk : list byte -> tval t) (get : tval t -> list byte) (bound : N) :
  (forall b, de t b = let* (v, r) := de_blob k b in Ok (mk v, r)) ->
  (forall v, layout t v = be k (len (get v)) ++ get v) ->
  (forall v, mk (get v) = v) -> (forall l, get (mk l) = l) ->
  bound = 256 ^ N.of_nat k - 1 ->
  (forall v, in_range t v -> encodable t v -> len (get v) <= bound) ->
  (forall l, len l <= bound -> in_range t (mk l) /\ encodable t (mk l)) ->
  (forall v, in_range t v ->
    (encodable t v /\ exists evs, ser t v = Ok evs /\ bincode_write evs = layout t v) \/
    (~ encodable t v /\ custom (ser t v))) ->
  (forall v, transmitted t v = v) ->
  min_size t = k ->
  facts t.
Proof.
  intros Hde Hlay Hmg Hgm Hb Hbound Hin Hser Htr Hmin.
  assert (Hpos : 256 ^ N.of_nat k <> 0) by (apply N.pow_nonzero; lia).
  assert (Hround : forall v y, in_range t v -> encodable t v -> de t (layout t v ++ y) = Ok (v, y)).
  { intros v y Hr He. rewrite Hde, Hlay, <- app_assoc.
    pose proof (Hbound v Hr He).
    rewrite de_blob_be by (try reflexivity; lia).
    cbn [bind]. now rewrite Hmg. }
  constructor.
  - intros b v r. rewrite Hde. destruct (de_blob k b) as [[l r']| |] eqn:E; cbn [bind]; try discriminate.
    intros [= <- <-]. apply de_blob_ok in E as (p & -> & Hp & Hv).
    exists (p ++ l). rewrite <- app_assoc. split; [reflexivity|].
    assert (Hl : len l <= bound).
    { pose proof (be_value_lt p) as Hlt. rewrite Hp, Hv in Hlt. lia. }
    destruct (Hin l Hl) as [Hr He].
    assert (Hc : layout t (mk l) = p ++ l).
    { rewrite Hlay, Hgm, <- Hv, <- Hp, be_be_value. reflexivity. }
    rewrite Hc. repeat split; auto.
    intros _ y. rewrite Hde, <- app_assoc, de_blob_build by assumption. reflexivity.
  - intros b p _ H. rewrite Hde in H. destruct (de_blob k b) as [[l r']| |q] eqn:E; try discriminate.
    now apply de_blob_no_panic in E.
  - intros b p _ H. rewrite Hde in H. destruct (de_blob k b) as [[l r']| |q] eqn:E; try discriminate.
    now apply de_blob_no_panic in E.
  - intros v y Hr He _. now rewrite Hround, Htr.
  - intros v Hr He _. rewrite <- (app_nil_r (layout t v)). now rewrite Hround, Htr.
  - exact Hser.
  - intros v _ _. rewrite Hlay, app_length, be_length. lia.
  - intros v. now rewrite Htr.
Qed.

Lemma facts_vec : facts TVecU8.
Proof.
  apply (blob_facts TVecU8 8 (fun l => l) (fun l => l) (2 ^ 64 - 1)); try easy.
  - intros b. cbn [de]. rewrite de_vec_u8_blob. destruct (de_blob 8 b) as [[v r]| |]; reflexivity.
  - intros v. now rewrite be8.
  - intros v H _. cbn [in_range] in H. unfold vec_in_range in H. lia.
  - intros l H. split; [|exact I]. cbn [in_range]. unfold vec_in_range.
    change (2 ^ 64) with 18446744073709551616 in *. lia.
  - intros v _. left. split; [exact I|]. eexists. split; [reflexivity|].
    cbn [bincode_write flat_map write_ev]. fold (bincode_write (map EvU8 v)).
    now rewrite bincode_write_u8s, be8.
Qed.

Lemma facts_varlen64 : facts TVarLen64.
Proof.
  apply (blob_facts TVarLen64 8 VarLen64 vl64 (2 ^ 64 - 1)); try easy.
  - intros b. cbn [de]. now rewrite de_varlen64_blob.
  - intros v. now rewrite be8.
  - now intros [v].
  - intros v H _. cbn [in_range] in H. unfold vec_in_range in H. lia.
  - intros l H. split; [|exact I]. cbn [in_range vl64]. unfold vec_in_range.
    change (2 ^ 64) with 18446744073709551616 in *. lia.
  - intros v _. left. split; [exact I|]. eexists. split; [reflexivity|].
    cbn [bincode_write flat_map write_ev]. fold (bincode_write (map EvU8 (vl64 v))).
    now rewrite bincode_write_u8s, be8.
Qed.

Lemma ser_varlen16_cases l :
  (len l <= 65535 /\ exists evs, ser_varlen16 (VarLen16 l) = Ok evs /\ bincode_write evs = u16_bytes (len l) ++ l) \/
  (~ len l <= 65535 /\ custom (ser_varlen16 (VarLen16 l))).
Proof.
  unfold ser_varlen16. cbn [vl16]. fold (len l).
  destruct (N.ltb_spec 65535 (len l)) as [H|H].
  - right. split; [lia|]. now eexists.
  - left. split; [lia|]. eexists. split; [reflexivity|].
    cbn [bincode_write flat_map write_ev app]. fold (bincode_write (map EvU8 l)).
    now rewrite bincode_write_u8s, be2.
Qed.

Lemma facts_varlen16 : facts TVarLen16.
Proof.
  apply (blob_facts TVarLen16 2 VarLen16 vl16 65535); try easy.
  - intros b. cbn [de]. now rewrite de_varlen16_blob.
  - now intros [v].
  - intros l H. split; [|exact H]. cbn [in_range vl16]. unfold vec_in_range.
    change (2 ^ 64) with 18446744073709551616 in *. lia.
  - intros [v] _. apply ser_varlen16_cases.
Qed.

Lemma facts_nested : facts TNested.
Proof.
  apply (blob_facts TNested 2 (fun l => NestedPacket (Packet l)) (fun v => packet_bytes (nested_inner v)) 65535);
    try easy.
  - intros b. cbn [de]. now rewrite de_nested_blob.
  - now intros [[v]].
  - intros l H. split; [|exact H]. cbn [in_range nested_inner packet_bytes]. unfold vec_in_range.
    change (2 ^ 64) with 18446744073709551616 in *. lia.
  - intros [[v]] _. cbn [encodable ser layout nested_inner packet_bytes]. unfold ser_nested.
    cbn [ser_seq nested_inner packet_bytes bind].
    destruct (ser_varlen16_cases v) as [(H & evs & -> & W)|(H & m & ->)].
    + left. split; [exact H|]. eexists. split; [reflexivity|].
      cbn [app bincode_write flat_map write_ev]. rewrite app_nil_r. exact W.
    + right. split; [exact H|]. now exists m.
Qed.

Lemma facts_varlen32 : facts TVarLen32.
Proof.
  apply (blob_facts TVarLen32 4 VarLen32 vl32 4294967295); try easy.
  - intros b. cbn [de]. now rewrite de_varlen32_blob.
  - intros v. now rewrite be4.
  - now intros [v].
  - intros l H. split; [|exact H]. cbn [in_range vl32]. unfold vec_in_range.
    change (2 ^ 64) with 18446744073709551616 in *. lia.
  - intros [v] _. cbn [ser encodable layout]. unfold ser_varlen32. cbn [vl32]. fold (len v).
    destruct (N.ltb_spec 4294967295 (len v)) as [H|H].
    + right. split; [lia|]. now eexists.
    + left. split; [lia|]. eexists. split; [reflexivity|].
      cbn [bincode_write flat_map write_ev app]. fold (bincode_write (map EvU8 v)).
      now rewrite bincode_write_u8s, be4.
Qed.

(** ** Raw tails *)
Lemma usize_cap_bound b : N.of_nat (usize_cap b) < 2 ^ 64.
Proof.
  unfold usize_cap. rewrite N2Nat.id. unfold USIZE_MAX.
  change (2 ^ 64) with 18446744073709551616. lia.
Qed.
Lemma usize_cap_le b : (usize_cap b <= length b)%nat.
Proof. unfold usize_cap. lia. Qed.

Lemma firstn_cap_in_range b : vec_in_range (firstn (usize_cap b) b).
Proof.
  unfold vec_in_range, len. rewrite firstn_length. pose proof (usize_cap_bound b). lia.
Qed.

Lemma facts_rawend : facts TRawEnd.
Proof.
  constructor; cbn [self_delimiting has_auth has_introduction raw_at_end_only min_size encodable transmitted];
    try easy.
  - intros b v r. cbn [de]. rewrite de_rawend_any. intros [= <- <-].
    exists (firstn (usize_cap b) b). cbn [layout raw_bytes in_range].
    rewrite firstn_skipn. repeat split; auto; try easy. apply firstn_cap_in_range.
  - intros b p _. cbn [de]. now rewrite de_rawend_any.
  - intros [v] H _ _. cbn [de layout raw_bytes in_range] in *. now apply de_rawend_all.
  - intros [v] _. left. split; [exact I|]. eexists. split; [reflexivity|].
    cbn [bincode_write flat_map write_ev app raw_bytes]. fold (bincode_write (map EvU8 v)).
    apply bincode_write_u8s.
  - intros v _ _. lia.
Qed.

(** Flag bytes written by introduction payloads. *)
Lemma request_flags ct adv :
  bits_to_u8 (bits_from_bools (fst (ct_encode ct)) (snd (ct_encode ct)) false false false false false adv)
  = byte_of_N (connection_code ct + (if adv then 128 else 0)).
Proof. destruct ct, adv; reflexivity. Qed.
Lemma response_flags ct :
  bits_to_u8 (bits_from_bools (fst (ct_encode ct)) (snd (ct_encode ct)) false false false false false false)
  = byte_of_N (connection_code ct).
Proof. destruct ct; reflexivity. Qed.
Lemma connection_at_flags ct (adv : bool) r :
  connection_at (byte_of_N (connection_code ct + (if adv then 128 else 0)) :: r) 0 = ct.
Proof. destruct ct, adv; reflexivity. Qed.
Lemma high_bit_at_flags ct (adv : bool) r :
  high_bit_at (byte_of_N (connection_code ct + (if adv then 128 else 0)) :: r) 0 = adv.
Proof. destruct ct, adv; reflexivity. Qed.
Lemma connection_at_flags' ct r : connection_at (byte_of_N (connection_code ct) :: r) 0 = ct.
Proof. destruct ct; reflexivity. Qed.

Lemma connection_at_skipn i j b : connection_at (skipn i b) j = connection_at b (i + j).
Proof. unfold connection_at. now rewrite n_at_skipn. Qed.
Lemma high_bit_at_skipn i j b : high_bit_at (skipn i b) j = high_bit_at b (i + j).
Proof. unfold high_bit_at. now rewrite n_at_skipn. Qed.

Lemma request_layout_length v :
  encodable TIntroductionRequest v ->
  length (request_layout v) = (21 + length (raw_bytes (iq_extra_bytes v)))%nat.
Proof.
  intros (E1 & E2 & E3). unfold request_layout.
  rewrite !app_length, !address_layout_length by assumption. reflexivity.
Qed.
Lemma response_layout_length v :
  encodable TIntroductionResponse v ->
  length (response_layout v) = (33 + length (raw_bytes (ir_extra_bytes v)))%nat.
Proof.
  intros (E1 & E2 & E3 & E4 & E5). unfold response_layout.
  rewrite !app_length, !address_layout_length by assumption. reflexivity.
Qed.

Lemma skipn_next {A} (k n : nat) (b a r : list A) :
  skipn k b = a ++ r -> length a = n -> skipn (k + n) b = r.
Proof. intros H Hn. rewrite <- skipn_skipn', H. now apply skipn_app_exact. Qed.

Lemma facts_introduction_request : facts TIntroductionRequest.
Proof.
  constructor; cbn [self_delimiting has_auth has_introduction raw_at_end_only transmitted]; try easy.
  - intros b v r. cbn [de]. rewrite de_introduction_request_any.
    destruct (Nat.ltb_spec (length b) 21) as [H|H]; [discriminate|].
    unfold request_any. intros [= <- <-].
    set (tl := skipn 21 b).
    exists (firstn 21 b ++ firstn (usize_cap tl) tl).
    rewrite <- app_assoc, firstn_skipn. unfold tl at 1. rewrite firstn_skipn.
    split; [reflexivity|].
    assert (E : encodable TIntroductionRequest (fst (request_any b))) by (now repeat split).
    assert (L : length (layout TIntroductionRequest (fst (request_any b))) =
                length (firstn 21 b ++ firstn (usize_cap tl) tl)).
    { cbn [layout]. rewrite request_layout_length by exact E.
      rewrite app_length, firstn_length_le by lia. reflexivity. }
    split; [repeat split; try apply u16_at_lt; apply firstn_cap_in_range|].
    split; [exact E|]. split; [reflexivity|].
    unfold request_any in L. cbn [fst] in L. fold tl in L.
    split; [apply Nat.eq_le_incl; exact L|]. split; [intros _; exact L|]. now split.
  - intros b p _. cbn [de]. rewrite de_introduction_request_any. destruct (_ <? _)%nat; discriminate.
  - intros v Hr He _. cbn [de layout]. rewrite de_introduction_request_any.
    pose proof (request_layout_length v He) as L.
    destruct (Nat.ltb_spec (length (request_layout v)) 21) as [H|H]; [lia|].
    destruct Hr as (R1 & R2 & R3 & R4 & R5), He as (E1 & E2 & E3).
    assert (S0 : skipn 0 (request_layout v) = request_layout v) by reflexivity.
    unfold request_layout in S0 at 2.
    pose proof (skipn_next 0 6 _ _ _ S0 (address_layout_length _ E1)) as S1.
    pose proof (skipn_next 6 6 _ _ _ S1 (address_layout_length _ E2)) as S2.
    pose proof (skipn_next 12 6 _ _ _ S2 (address_layout_length _ E3)) as S3.
    pose proof (skipn_next 18 1 _ _ _ S3 eq_refl) as S4.
    pose proof (skipn_next 19 2 _ _ _ S4 eq_refl) as S5.
    cbn [Nat.add] in S1, S2, S3, S4, S5.
    unfold request_any. rewrite S5.
    rewrite usize_cap_fits by exact R5. rewrite firstn_all, skipn_all.
    replace (address_at (request_layout v) 0) with (iq_destination_address v)
      by (symmetry; change (request_layout v) with (skipn 0 (request_layout v)); rewrite S0;
          now apply address_at_layout).
    replace (address_at (request_layout v) 6) with (iq_source_lan_address v)
      by (symmetry; change 6%nat with (6 + 0)%nat; rewrite <- address_at_skipn, S1;
          now apply address_at_layout).
    replace (address_at (request_layout v) 12) with (iq_source_wan_address v)
      by (symmetry; change 12%nat with (12 + 0)%nat; rewrite <- address_at_skipn, S2;
          now apply address_at_layout).
    replace (high_bit_at (request_layout v) 18) with (iq_advice v)
      by (symmetry; change 18%nat with (18 + 0)%nat; rewrite <- high_bit_at_skipn, S3;
          apply high_bit_at_flags).
    replace (connection_at (request_layout v) 18) with (iq_connection_type v)
      by (symmetry; change 18%nat with (18 + 0)%nat; rewrite <- connection_at_skipn, S3;
          apply connection_at_flags).
    replace (u16_at (request_layout v) 19) with (iq_identifier v)
      by (symmetry; change 19%nat with (19 + 0)%nat; rewrite <- u16_at_skipn, S4;
          now apply u16_at_layout).
    destruct v as [a1 a2 a3 adv ct n [x]]; reflexivity.
  - intros [a1 a2 a3 adv ct n [x]] _.
    cbn [encodable layout ser]. unfold ser_introduction_request, request_layout.
    cbn [ser_seq iq_destination_address iq_source_lan_address iq_source_wan_address
         iq_advice iq_connection_type iq_identifier iq_extra_bytes bind].
    destruct (ipv4_dec a1) as [H1|H1].
    2:{ right. split; [tauto|]. destruct (ser_address_err a1 H1) as [m ->]. now exists m. }
    destruct (ser_address_ok a1 H1) as (e1 & -> & W1). cbn [bind].
    destruct (ipv4_dec a2) as [H2|H2].
    2:{ right. split; [tauto|]. destruct (ser_address_err a2 H2) as [m ->]. now exists m. }
    destruct (ser_address_ok a2 H2) as (e2 & -> & W2). cbn [bind].
    destruct (ipv4_dec a3) as [H3|H3].
    2:{ right. split; [tauto|]. destruct (ser_address_err a3 H3) as [m ->]. now exists m. }
    destruct (ser_address_ok a3 H3) as (e3 & -> & W3). cbn [bind].
    left. split; [auto|]. eexists. split; [reflexivity|].
    rewrite !bincode_write_app, W1, W2, W3.
    cbn [bincode_write flat_map write_ev app raw_bytes]. rewrite request_flags.
    fold (bincode_write (map EvU8 x)). rewrite bincode_write_u8s.
    rewrite ?app_nil_r, be2. reflexivity.
  - intros v Hr He. cbn [layout min_size]. rewrite request_layout_length by exact He. lia.
Qed.

Lemma facts_introduction_response : facts TIntroductionResponse.
Proof.
  constructor; cbn [self_delimiting has_auth has_introduction raw_at_end_only transmitted]; try easy.
  - intros b v r. cbn [de]. rewrite de_introduction_response_any.
    destruct (Nat.ltb_spec (length b) 33) as [H|H]; [discriminate|].
    unfold response_any. intros [= <- <-].
    set (tl := skipn 33 b).
    exists (firstn 33 b ++ firstn (usize_cap tl) tl).
    rewrite <- app_assoc, firstn_skipn. unfold tl at 1. rewrite firstn_skipn.
    split; [reflexivity|].
    assert (E : encodable TIntroductionResponse (fst (response_any b))) by (now repeat split).
    assert (L : length (layout TIntroductionResponse (fst (response_any b))) =
                length (firstn 33 b ++ firstn (usize_cap tl) tl)).
    { cbn [layout]. rewrite response_layout_length by exact E.
      rewrite app_length, firstn_length_le by lia. reflexivity. }
    split; [repeat split; try apply u16_at_lt; apply firstn_cap_in_range|].
    split; [exact E|]. split; [reflexivity|].
    unfold response_any in L. cbn [fst] in L. fold tl in L.
    split; [apply Nat.eq_le_incl; exact L|]. split; [intros _; exact L|]. now split.
  - intros b p _. cbn [de]. rewrite de_introduction_response_any. destruct (_ <? _)%nat; discriminate.
  - intros v Hr He _. cbn [de layout]. rewrite de_introduction_response_any.
    pose proof (response_layout_length v He) as L.
    destruct (Nat.ltb_spec (length (response_layout v)) 33) as [H|H]; [lia|].
    destruct Hr as (R1 & R2 & R3 & R4 & R5 & R6 & R7), He as (E1 & E2 & E3 & E4 & E5).
    assert (S0 : skipn 0 (response_layout v) = response_layout v) by reflexivity.
    unfold response_layout in S0 at 2.
    pose proof (skipn_next 0 6 _ _ _ S0 (address_layout_length _ E1)) as S1.
    pose proof (skipn_next 6 6 _ _ _ S1 (address_layout_length _ E2)) as S2.
    pose proof (skipn_next 12 6 _ _ _ S2 (address_layout_length _ E3)) as S3.
    pose proof (skipn_next 18 6 _ _ _ S3 (address_layout_length _ E4)) as S4.
    pose proof (skipn_next 24 6 _ _ _ S4 (address_layout_length _ E5)) as S5.
    pose proof (skipn_next 30 1 _ _ _ S5 eq_refl) as S6.
    pose proof (skipn_next 31 2 _ _ _ S6 eq_refl) as S7.
    cbn [Nat.add] in S1, S2, S3, S4, S5, S6, S7.
    unfold response_any. rewrite S7.
    rewrite usize_cap_fits by exact R7. rewrite firstn_all, skipn_all.
    replace (address_at (response_layout v) 0) with (ir_destination_address v)
      by (symmetry; change (response_layout v) with (skipn 0 (response_layout v)); rewrite S0;
          now apply address_at_layout).
    replace (address_at (response_layout v) 6) with (ir_source_lan_address v)
      by (symmetry; change 6%nat with (6 + 0)%nat; rewrite <- address_at_skipn, S1;
          now apply address_at_layout).
    replace (address_at (response_layout v) 12) with (ir_source_wan_address v)
      by (symmetry; change 12%nat with (12 + 0)%nat; rewrite <- address_at_skipn, S2;
          now apply address_at_layout).
    replace (address_at (response_layout v) 18) with (ir_lan_introduction_address v)
      by (symmetry; change 18%nat with (18 + 0)%nat; rewrite <- address_at_skipn, S3;
          now apply address_at_layout).
    replace (address_at (response_layout v) 24) with (ir_wan_introduction_address v)
      by (symmetry; change 24%nat with (24 + 0)%nat; rewrite <- address_at_skipn, S4;
          now apply address_at_layout).
    replace (connection_at (response_layout v) 30) with (ir_connection_type v)
      by (symmetry; change 30%nat with (30 + 0)%nat; rewrite <- connection_at_skipn, S5;
          apply connection_at_flags').
    replace (u16_at (response_layout v) 31) with (ir_identifier v)
      by (symmetry; change 31%nat with (31 + 0)%nat; rewrite <- u16_at_skipn, S6;
          now apply u16_at_layout).
    destruct v as [a1 a2 a3 a4 a5 tn ct n [x]]; reflexivity.
  - intros [a1 a2 a3 a4 a5 tn ct n [x]] _.
    cbn [encodable layout ser]. unfold ser_introduction_response, response_layout.
    cbn [ser_seq ir_destination_address ir_source_lan_address ir_source_wan_address
         ir_lan_introduction_address ir_wan_introduction_address
         ir_connection_type ir_identifier ir_extra_bytes bind].
    destruct (ipv4_dec a1) as [H1|H1].
    2:{ right. split; [tauto|]. destruct (ser_address_err a1 H1) as [m ->]. now exists m. }
    destruct (ser_address_ok a1 H1) as (e1 & -> & W1). cbn [bind].
    destruct (ipv4_dec a2) as [H2|H2].
    2:{ right. split; [tauto|]. destruct (ser_address_err a2 H2) as [m ->]. now exists m. }
    destruct (ser_address_ok a2 H2) as (e2 & -> & W2). cbn [bind].
    destruct (ipv4_dec a3) as [H3|H3].
    2:{ right. split; [tauto|]. destruct (ser_address_err a3 H3) as [m ->]. now exists m. }
    destruct (ser_address_ok a3 H3) as (e3 & -> & W3). cbn [bind].
    destruct (ipv4_dec a4) as [H4|H4].
    2:{ right. split; [tauto|]. destruct (ser_address_err a4 H4) as [m ->]. now exists m. }
    destruct (ser_address_ok a4 H4) as (e4 & -> & W4). cbn [bind].
    destruct (ipv4_dec a5) as [H5|H5].
    2:{ right. split; [tauto|]. destruct (ser_address_err a5 H5) as [m ->]. now exists m. }
    destruct (ser_address_ok a5 H5) as (e5 & -> & W5). cbn [bind].
    left. split; [auto 6|]. eexists. split; [reflexivity|].
    rewrite !bincode_write_app, W1, W2, W3, W4, W5.
    cbn [bincode_write flat_map write_ev app raw_bytes]. rewrite response_flags.
    fold (bincode_write (map EvU8 x)). rewrite bincode_write_u8s.
    rewrite ?app_nil_r, be2. reflexivity.
  - intros v Hr He. cbn [layout min_size]. rewrite response_layout_length by exact He. lia.
Qed.

(** ** Authentication payload *)
Lemma auth_of_contents_ok l v :
  auth_of_contents l = Ok v ->
  (74 <= length l)%nat /\ firstn 10 l = libnacl_prefix /\
  v = BinMember (firstn 32 (skipn 42 l)) (firstn 32 (skipn 10 l)).
Proof.
  unfold auth_of_contents.
  destruct (Nat.ltb_spec (length l) 10); [discriminate|].
  destruct (bytes_eqb (firstn 10 l) libnacl_prefix) eqn:E; cbn [negb]; [|discriminate].
  destruct (Nat.ltb_spec (length l) 74); [discriminate|].
  intros [= <-]. apply bytes_eqb_eq in E. auto.
Qed.

Lemma auth_layout_length v :
  in_range TBinMember v -> length (auth_layout v) = 76%nat.
Proof.
  intros [H1 H2]. unfold auth_layout. rewrite !app_length, H1, H2. reflexivity.
Qed.

Lemma auth_round v y : in_range TBinMember v -> de_bin_member (auth_layout v ++ y) = Ok (v, y).
Proof.
  intros [H1 H2]. rewrite de_bin_member_blob. unfold auth_layout.
  rewrite <- app_assoc, <- be2.
  rewrite de_blob_be.
  2:{ unfold len. rewrite !app_length, H1, H2. reflexivity. }
  2:{ reflexivity. }
  cbn [bind]. unfold auth_of_contents.
  rewrite !app_length, H1, H2. cbn [Nat.ltb].
  replace (_ <? 10)%nat with false by reflexivity.
  rewrite firstn_app_exact by reflexivity.
  rewrite <- libnacl_ascii, bytes_eqb_refl. cbn [negb].
  replace (_ <? 74)%nat with false by reflexivity.
  rewrite (skipn_app_exact 10) by reflexivity.
  rewrite (firstn_app_exact 32) by assumption.
  replace 42%nat with (10 + 32)%nat by reflexivity.
  rewrite <- skipn_skipn', (skipn_app_exact 10), (skipn_app_exact 32) by (reflexivity || assumption).
  rewrite <- (app_nil_r (bm_public_key_bin v)), (firstn_app_exact 32) by assumption.
  destruct v; reflexivity.
Qed.

Lemma facts_bin_member : facts TBinMember.
Proof.
  constructor; cbn [self_delimiting has_auth has_introduction raw_at_end_only transmitted]; try easy.
  - intros b v r. cbn [de]. rewrite de_bin_member_blob.
    destruct (de_blob 2 b) as [[l r']| |] eqn:E; cbn [bind]; try discriminate.
    destruct (auth_of_contents l) as [v'| |] eqn:A; cbn [bind]; try discriminate.
    intros [= <- <-]. apply de_blob_ok in E as (p & -> & Hp & Hv).
    pose proof (auth_of_contents_ok l v' A) as (Hlen & _ & Hv').
    assert (R : in_range TBinMember v').
    { rewrite Hv'. cbn [in_range bm_public_key_bin bm_encryption_key_bin].
      rewrite !firstn_length, !skipn_length. lia. }
    exists (p ++ l). rewrite <- app_assoc. repeat split; try easy; try apply R.
    + cbn [layout]. rewrite auth_layout_length by exact R. rewrite app_length. lia.
    + intros _ y. rewrite de_bin_member_blob, <- app_assoc, de_blob_build by assumption.
      cbn [bind]. now rewrite A.
  - intros b p _ H y. cbn [de] in *. rewrite de_bin_member_blob in *.
    destruct (de_blob 2 b) as [[l r']| |q] eqn:E; cbn [bind] in H; try discriminate.
    2:{ now apply de_blob_no_panic in E. }
    apply de_blob_ok in E as (p' & -> & Hp & Hv).
    rewrite <- !app_assoc, de_blob_build by assumption. cbn [bind].
    destruct (auth_of_contents l) as [v'| |]; cbn [bind] in *; try discriminate. assumption.
  - intros v y Hr _ _. now apply auth_round.
  - intros v Hr _ _. rewrite <- (app_nil_r (layout TBinMember v)). now apply auth_round.
  - intros v [H1 H2]. left. split; [exact I|]. eexists. split; [reflexivity|].
    cbn [layout]. unfold auth_layout.
    cbn [bincode_write flat_map write_ev app].
    fold (bincode_write (map EvU8 libnacl_prefix ++ map EvU8 (bm_encryption_key_bin v) ++ map EvU8 (bm_public_key_bin v))).
    rewrite !bincode_write_app, !bincode_write_u8s, H1, H2, be2. reflexivity.
  - intros v Hr _. cbn [layout min_size]. rewrite auth_layout_length by exact Hr. lia.
Qed.

(** ** Structs *)
Lemma factss_nil : factss FNil.
Proof.
  constructor; cbn; try easy.
  - intros b v r [= <- <-]. exists []. repeat split; auto.
  - intros []; reflexivity.
  - intros []; reflexivity.
  - intros v _. left. split; [exact I|]. now exists [].
Qed.

Lemma factss_cons t fs : facts t -> factss fs -> factss (FCons t fs).
Proof.
  intros T F. constructor.
  - intros b [x xs] r. cbn [des_plain].
    destruct (de t b) as [[x' b1]| |] eqn:E1; cbn [bind]; try discriminate.
    destruct (des_plain fs b1) as [[xs' b2]| |] eqn:E2; cbn [bind]; try discriminate.
    intros [= <- <- <-].
    destruct (f_ok t T _ _ _ E1) as (c1 & -> & R1 & N1 & T1 & L1 & A1 & X1 & S1).
    destruct (fs_ok fs F _ _ _ E2) as (c2 & -> & R2 & N2 & T2 & L2 & A2 & X2 & S2).
    exists (c1 ++ c2). rewrite <- app_assoc. split; [reflexivity|].
    cbn [in_ranges encodables transmitteds layouts fst snd].
    split; [now split|]. split; [now split|]. split; [now rewrite T1, T2|].
    rewrite !app_length. split; [lia|].
    cbn [have_auth have_introduction all_self_delimiting].
    split; [|split].
    + intros H. apply orb_false_iff in H as [Ha Hb]. rewrite A1, A2 by assumption. lia.
    + intros H H'. apply orb_false_iff in H as [Ha Hb]. apply orb_false_iff in H' as [Hc Hd].
      now rewrite X1, X2.
    + intros H y. apply andb_true_iff in H as [Ha Hb].
      rewrite <- app_assoc, S1 by assumption. cbn [bind]. rewrite S2 by assumption. reflexivity.
  - intros b p H. cbn [all_self_delimiting] in H. apply andb_true_iff in H as [Ha Hb].
    cbn [des_plain]. destruct (de t b) as [[x' b1]| |q] eqn:E1; cbn [bind]; try discriminate.
    + destruct (des_plain fs b1) as [[xs' b2]| |q] eqn:E2; cbn [bind]; try discriminate.
      intros [= ->] y.
      destruct (f_ok t T _ _ _ E1) as (c1 & -> & _ & _ & _ & _ & _ & _ & S1).
      rewrite <- app_assoc, S1 by assumption. cbn [bind].
      now rewrite (fs_panic fs F _ _ Hb E2).
    + intros [= ->] y. now rewrite (f_panic t T _ _ Ha E1).
  - intros b p H. cbn [have_auth] in H. apply orb_false_iff in H as [Ha Hb].
    cbn [des_plain]. destruct (de t b) as [[x' b1]| |q] eqn:E1; cbn [bind]; try discriminate.
    + destruct (des_plain fs b1) as [[xs' b2]| |q] eqn:E2; cbn [bind]; try discriminate.
      now apply (fs_no_panic fs F) in E2.
    + now apply (f_no_panic t T) in E1.
  - intros [x xs] y [R1 R2] [N1 N2] H. cbn [all_self_delimiting] in H. apply andb_true_iff in H as [Ha Hb].
    cbn [layouts des_plain fst snd transmitteds] in *.
    rewrite <- app_assoc, (f_round t T) by assumption. cbn [bind].
    rewrite (fs_round fs F) by assumption. reflexivity.
  - intros [x xs] [R1 R2] [N1 N2] H.
    cbn [layouts des_plain fst snd transmitteds] in *.
    destruct fs as [|t' fs'].
    + cbn [raw_at_end_onlys layouts] in *. rewrite app_nil_r.
      rewrite (f_round_end t T) by assumption. destruct xs; reflexivity.
    + change (raw_at_end_onlys (FCons t (FCons t' fs'))) with
        (self_delimiting t && raw_at_end_onlys (FCons t' fs'))%bool in H.
      apply andb_true_iff in H as [Ha Hb].
      rewrite (f_round t T) by assumption. cbn [bind].
      rewrite (fs_round_end _ F) by assumption. reflexivity.
  - intros [x xs] [R1 R2]. cbn [sers layouts encodables fst snd] in *.
    destruct (f_ser t T x R1) as [(N1 & e1 & -> & W1)|(N1 & m & ->)]; cbn [bind].
    + destruct (fs_ser fs F xs R2) as [(N2 & e2 & -> & W2)|(N2 & m & ->)]; cbn [bind].
      * left. split; [now split|]. eexists. split; [reflexivity|].
        now rewrite bincode_write_app, W1, W2.
      * right. split; [tauto|]. now exists m.
    + right. split; [tauto|]. now exists m.
  - intros [x xs] [R1 R2] [N1 N2]. cbn [min_sizes layouts fst snd] in *.
    rewrite app_length. pose proof (f_min t T x R1 N1). pose proof (fs_min fs F xs R2 N2). lia.
  - intros [x xs]. cbn [layouts transmitteds fst snd].
    now rewrite (f_transmitted t T), (fs_transmitted fs F).
Qed.

Lemma facts_struct fs : factss fs -> facts (TStruct fs).
Proof.
  intros F. constructor.
  - intros b v r. rewrite de_struct. intros H.
    destruct (fs_ok fs F _ _ _ H) as (c & -> & R & N & T & L & A & X & S).
    exists c. do 7 (split; [auto|]). intros Hs y. rewrite de_struct. now apply S.
  - intros b p Hs. rewrite de_struct. intros H y. rewrite de_struct.
    now apply (fs_panic fs F).
  - intros b p Ha. rewrite de_struct. now apply (fs_no_panic fs F).
  - intros v y. rewrite de_struct. apply (fs_round fs F).
  - intros v. rewrite de_struct. apply (fs_round_end fs F).
  - intros v Hr. cbn [ser]. destruct (fs_ser fs F v Hr) as [(N & e & -> & W)|(N & m & ->)]; cbn [bind].
    + left. split; [exact N|]. eexists. split; [reflexivity|]. exact W.
    + right. split; [exact N|]. now exists m.
  - apply (fs_min fs F).
  - apply (fs_transmitted fs F).
Qed.

(** ** Field types only user structs have *)

Lemma de_bool_eq b :
  de_bool b = match b with
              | [] => Err EEof
              | x :: r => match x with x00 => Ok (false, r) | x01 => Ok (true, r) | _ => Err EInvalidBool end
              end.
Proof. now destruct b. Qed.
Lemma de_bool_ok b v r : de_bool b = Ok (v, r) -> b = (if v then x01 else x00) :: r.
Proof. destruct b as [|[] b]; cbn; try discriminate; intros [= <- <-]; reflexivity. Qed.
Lemma de_bool_build (v : bool) r : de_bool ((if v then x01 else x00) :: r) = Ok (v, r).
Proof. now destruct v. Qed.
Lemma de_bool_no_panic b p : de_bool b <> Panic p.
Proof. destruct b as [|[] b]; discriminate. Qed.

Lemma facts_bool : facts TBool.
Proof.
  constructor; cbn [self_delimiting has_auth has_introduction raw_at_end_only transmitted]; try easy.
  - intros b v r H. apply de_bool_ok in H as ->. exists [if v then x01 else x00].
    repeat split; auto. intros _ y. apply de_bool_build.
  - intros b p _ H. now apply de_bool_no_panic in H.
  - intros b p _ H. now apply de_bool_no_panic in H.
  - intros v y _ _ _. apply de_bool_build.
  - intros v _ _ _. apply de_bool_build.
  - intros v _. left. split; [exact I|]. now exists [EvBool v].
Qed.

(** Signed integers: [h] is half the number of values. *)
Definition sgn (h n : N) : Z := if n <? h then Z.of_N n else (Z.of_N n - 2 * Z.of_N h)%Z.
Definition twos (h : N) (z : Z) : N := Z.to_N (if (z <? 0)%Z then 2 * Z.of_N h + z else z).
Lemma twos_sgn h n : n < 2 * h -> twos h (sgn h n) = n.
Proof.
  intros H. unfold twos, sgn. destruct (N.ltb_spec n h).
  - destruct (Z.ltb_spec (Z.of_N n) 0); lia.
  - destruct (Z.ltb_spec (Z.of_N n - 2 * Z.of_N h) 0); lia.
Qed.
Lemma sgn_twos h z : (- Z.of_N h <= z < Z.of_N h)%Z -> twos h z < 2 * h /\ sgn h (twos h z) = z.
Proof.
  intros H. unfold twos, sgn. destruct (Z.ltb_spec z 0);
    match goal with |- context [?a <? ?b] => destruct (N.ltb_spec a b) end; lia.
Qed.
Lemma sgn_range h n : n < 2 * h -> (- Z.of_N h <= sgn h n < Z.of_N h)%Z.
Proof. intros H. unfold sgn. destruct (N.ltb_spec n h); lia. Qed.
Lemma mod_twos h z : (- Z.of_N h <= z < Z.of_N h)%Z -> Z.to_N (z mod (2 * Z.of_N h)) = twos h z.
Proof.
  intros H. unfold twos. f_equal. destruct (Z.ltb_spec z 0).
  - symmetry. apply Z.mod_unique with (q := (-1)%Z); lia.
  - apply Z.mod_small. lia.
Qed.

Lemma int_facts (t : ty) (k : nat) (h : N) (T : tval t = Z) :
  let val (z : Z) : tval t := eq_rect_r (fun A : Type => A) z T in
  (forall b, de t b = let* (n, r) := de_uint k b in Ok (val (sgn h n), r)) ->
  (forall z, layout t (val z) = be k (twos h z)) ->
  (forall z, in_range t (val z) <-> (- Z.of_N h <= z < Z.of_N h)%Z) ->
  (forall z, encodable t (val z)) ->
  (forall z, in_range t (val z) -> exists evs, ser t (val z) = Ok evs /\ bincode_write evs = be k (twos h z)) ->
  (forall v, transmitted t v = v) ->
  min_size t = k -> 256 ^ N.of_nat k = 2 * h ->
  facts t.
Proof.
  intros val Hde Hlay Hr He Hser Htr Hmin Hh.
  assert (V : forall v : tval t, exists z, v = val z).
  { intros v. exists (eq_rect _ (fun A : Type => A) v _ T). unfold val. now rewrite rew_opp_l. }
  assert (Small : forall b, (k <= length b)%nat -> be_value (firstn k b) mod (2 * h) = be_value (firstn k b)).
  { intros b Hb. rewrite <- Hh. apply N.mod_small. now apply be_value_firstn_lt. }
  assert (Hpos : 2 * h <> 0) by (rewrite <- Hh; apply N.pow_nonzero; lia).
  apply (fixed_facts t k (fun b => val (sgn h (be_value (firstn k b) mod (2 * h))))); try easy.
  - intros b. rewrite Hde. unfold de_uint. destruct (Nat.ltb_spec (length b) k); [reflexivity|].
    cbn [bind]. now rewrite Small by lia.
  - intros b y H. now rewrite be_value_firstn_app.
  - intros b H. rewrite Hlay, twos_sgn by (now apply N.mod_lt). rewrite Small by lia.
    rewrite <- (firstn_length_le b H) at 1. apply be_be_value.
  - intros b. split; [|apply He]. apply Hr, sgn_range. now apply N.mod_lt.
  - intros v Hv _. destruct (V v) as [z ->]. apply Hr in Hv. destruct (sgn_twos h z Hv) as [S1 S2].
    rewrite Hlay. split; [apply be_length|].
    rewrite <- (be_length k (twos h z)) at 1. rewrite firstn_all, be_value_be_small by (now rewrite Hh).
    now rewrite N.mod_small, S2.
  - intros v Hv. destruct (V v) as [z ->]. left. split; [apply He|]. rewrite Hlay. now apply Hser.
Qed.

Lemma facts_i8 : facts TI8.
Proof.
  apply (int_facts TI8 1 128 eq_refl); try easy.
  - intros z H. eexists. split; [reflexivity|]. cbn [bincode_write flat_map write_ev]. rewrite app_nil_r.
    f_equal. exact (mod_twos 128 z H).
Qed.
Lemma facts_i16 : facts TI16.
Proof.
  apply (int_facts TI16 2 32768 eq_refl); try easy.
  - intros z H. eexists. split; [reflexivity|]. cbn [bincode_write flat_map write_ev]. rewrite app_nil_r.
    f_equal. exact (mod_twos 32768 z H).
Qed.
Lemma facts_i32 : facts TI32.
Proof.
  apply (int_facts TI32 4 2147483648 eq_refl); try easy.
  - intros z. rewrite be4. reflexivity.
  - intros z H. eexists. split; [reflexivity|]. cbn [bincode_write flat_map write_ev]. rewrite app_nil_r.
    f_equal. exact (mod_twos 2147483648 z H).
Qed.
Lemma facts_i64 : facts TI64.
Proof.
  apply (int_facts TI64 8 9223372036854775808 eq_refl); try easy.
  - intros z. rewrite be8. reflexivity.
  - intros z H. eexists. split; [reflexivity|]. cbn [bincode_write flat_map write_ev]. rewrite app_nil_r.
    f_equal. exact (mod_twos 9223372036854775808 z H).
Qed.

Lemma be16 n : be 16 n = u128_bytes n.
Proof.
  unfold u128_bytes. rewrite <- !be8. change 16%nat with (8 + 8)%nat. cbn [be Nat.add].
  rewrite <- !app_assoc.
  replace (n / 256 ^ 8) with (n / 256 / 256 / 256 / 256 / 256 / 256 / 256 / 256) by (rewrite !N.div_div by lia; reflexivity).
  reflexivity.
Qed.

Lemma facts_u128 : facts TU128.
Proof.
  apply (fixed_facts TU128 16 (fun b => be_value (firstn 16 b) mod 2 ^ 128)); try easy.
  - intros b. cbn [de]. unfold de_uint. destruct (Nat.ltb_spec (length b) 16); [reflexivity|].
    now rewrite N.mod_small by (apply (be_value_firstn_lt 16 b); lia).
  - intros b y H. now rewrite be_value_firstn_app.
  - intros b H. cbn [layout]. rewrite N.mod_small by (apply (be_value_firstn_lt 16 b); lia).
    rewrite <- be16. rewrite <- (firstn_length_le b H) at 1. apply be_be_value.
  - intros b. split; [now apply N.mod_lt|exact I].
  - intros v Hv _. cbn [layout in_range tval] in *. split; [reflexivity|].
    rewrite <- be16. change (firstn 16 (be 16 v)) with (be 16 v).
    rewrite be_value_be_small, N.mod_small by assumption. reflexivity.
  - intros v _. left. split; [exact I|]. exists [EvU128 v]. split; [reflexivity|].
    cbn [bincode_write flat_map write_ev]. now rewrite app_nil_r, be16.
Qed.

Lemma facts_i128 : facts TI128.
Proof.
  apply (int_facts TI128 16 170141183460469231731687303715884105728 eq_refl); try easy.
  - intros z. rewrite be16. reflexivity.
  - intros z H. eexists. split; [reflexivity|]. cbn [bincode_write flat_map write_ev]. rewrite app_nil_r.
    f_equal. exact (mod_twos 170141183460469231731687303715884105728 z H).
Qed.

Lemma facts_f32 : facts TF32.
Proof.
  apply (fixed_facts TF32 4 (fun b => be_value (firstn 4 b) mod 2 ^ 32)); try easy.
  - intros b. cbn [de]. unfold de_uint. destruct (Nat.ltb_spec (length b) 4); [reflexivity|].
    now rewrite N.mod_small by (apply (be_value_firstn_lt 4 b); lia).
  - intros b y H. now rewrite be_value_firstn_app.
  - intros b H. cbn [layout]. rewrite N.mod_small by (apply (be_value_firstn_lt 4 b); lia).
    apply u32_bytes_value, firstn_length_le. lia.
  - intros b. split; [now apply N.mod_lt|exact I].
  - intros v Hv _. cbn [layout in_range tval] in *. split; [reflexivity|].
    rewrite <- be4. change (firstn 4 (be 4 v)) with (be 4 v).
    rewrite be_value_be_small, N.mod_small by assumption. reflexivity.
  - intros v _. left. split; [exact I|]. exists [EvF32 v]. split; [reflexivity|].
    cbn [bincode_write flat_map write_ev]. now rewrite app_nil_r, be4.
Qed.

Lemma facts_f64 : facts TF64.
Proof.
  apply (fixed_facts TF64 8 (fun b => be_value (firstn 8 b) mod 2 ^ 64)); try easy.
  - intros b. cbn [de]. unfold de_uint. destruct (Nat.ltb_spec (length b) 8); [reflexivity|].
    now rewrite N.mod_small by (apply (be_value_firstn_lt 8 b); lia).
  - intros b y H. now rewrite be_value_firstn_app.
  - intros b H. cbn [layout]. rewrite N.mod_small by (apply (be_value_firstn_lt 8 b); lia).
    apply u64_bytes_value, firstn_length_le. lia.
  - intros b. split; [now apply N.mod_lt|exact I].
  - intros v Hv _. cbn [layout in_range tval] in *. split; [reflexivity|].
    rewrite <- be8. change (firstn 8 (be 8 v)) with (be 8 v).
    rewrite be_value_be_small, N.mod_small by assumption. reflexivity.
  - intros v _. left. split; [exact I|]. exists [EvF64 v]. split; [reflexivity|].
    cbn [bincode_write flat_map write_ev]. now rewrite app_nil_r, be8.
Qed.

Lemma facts_char : facts TChar.
Proof.
  constructor; cbn [self_delimiting has_auth has_introduction raw_at_end_only transmitted]; try easy.
  - intros b v r H. apply de_char_ok in H as [Hv ->]. exists (utf8_char v).
    repeat split; auto. intros _ y. now apply de_char_build.
  - intros b p _ H. now apply de_char_no_panic in H.
  - intros b p _ H. now apply de_char_no_panic in H.
  - intros v y H _ _. now apply de_char_build.
  - intros v H _ _. cbn [layout]. rewrite <- (app_nil_r (utf8_char v)). now apply de_char_build.
  - intros v H. left. split; [exact I|]. exists [EvChar v]. split; [reflexivity|].
    cbn [bincode_write flat_map write_ev layout]. rewrite app_nil_r. now apply encode_utf8_char.
  - intros v _ _. apply utf8_char_nonempty.
Qed.

Lemma de_string_blob b :
  de_string b = let* (s, r) := de_blob 8 b in if utf8_valid s then Ok (s, r) else Err EInvalidUtf8.
Proof.
  unfold de_string, de_u64, de_uint, de_blob. destruct (_ <? _)%nat; [reflexivity|]. cbn [bind].
  destruct (_ <? _); [reflexivity|]. cbn [bind]. now destruct (utf8_valid _).
Qed.

Lemma facts_string : facts TString.
Proof.
  assert (Hround : forall v y, in_range TString v -> de TString (layout TString v ++ y) = Ok (v, y)).
  { intros v y [H1 H2]. cbn [de layout]. rewrite de_string_blob, <- app_assoc, <- be8.
    unfold vec_in_range in H1. rewrite de_blob_be by (try reflexivity; exact H1). cbn [bind].
    apply utf8_valid_iff in H2. now rewrite H2. }
  constructor; cbn [self_delimiting has_auth has_introduction raw_at_end_only transmitted]; try easy.
  - intros b v r. cbn [de]. rewrite de_string_blob.
    destruct (de_blob 8 b) as [[s r']| |] eqn:E; cbn [bind]; try discriminate.
    destruct (utf8_valid s) eqn:U; [|discriminate]. intros [= <- <-].
    apply de_blob_ok in E as (p & -> & Hp & Hv).
    exists (p ++ s). rewrite <- app_assoc.
    assert (Hl : len s < 2 ^ 64).
    { pose proof (be_value_lt p) as Hlt. rewrite Hp, Hv in Hlt. exact Hlt. }
    assert (Hc : layout TString s = p ++ s).
    { cbn [layout]. rewrite <- be8, <- Hv, <- Hp, be_be_value. reflexivity. }
    rewrite Hc. pose proof (proj1 (utf8_valid_iff s) U).
    repeat split; auto.
    intros _ y. rewrite de_string_blob, <- app_assoc, de_blob_build by assumption. cbn [bind]. now rewrite U.
  - intros b p _. cbn [de]. rewrite de_string_blob. intros H.
    destruct (de_blob 8 b) as [[s r']| |q] eqn:E; cbn [bind] in H; try discriminate.
    + destruct (utf8_valid s); discriminate.
    + now apply de_blob_no_panic in E.
  - intros b p _. cbn [de]. rewrite de_string_blob. intros H.
    destruct (de_blob 8 b) as [[s r']| |q] eqn:E; cbn [bind] in H; try discriminate.
    + destruct (utf8_valid s); discriminate.
    + now apply de_blob_no_panic in E.
  - intros v y H _ _. now apply Hround.
  - intros v H _ _. rewrite <- (app_nil_r (layout TString v)). now apply Hround.
  - intros v _. left. split; [exact I|]. eexists. split; [reflexivity|].
    cbn [bincode_write flat_map write_ev layout]. now rewrite app_nil_r, be8.
  - intros v _ _. cbn [layout min_size]. rewrite <- be8, app_length, be_length. lia.
Qed.

Lemma facts_option t : facts t -> facts (TOption t).
Proof.
  intros T. constructor.
  - intros b v r. cbn [de]. unfold de_option. destruct b as [|x b]; [discriminate|]. cbn [de_u8 bind].
    destruct x; try discriminate.
    + intros [= <- <-]. exists [x00]. repeat split; auto.
    + destruct (de t b) as [[w r']| |] eqn:E; cbn [bind]; try discriminate. intros [= <- <-].
      destruct (f_ok t T _ _ _ E) as (c & -> & R & N & Tr & L & A & X & S).
      exists (x01 :: c). cbn [in_range encodable transmitted option_map layout has_auth has_introduction self_delimiting].
      split; [reflexivity|]. do 2 (split; [assumption|]). split; [now rewrite Tr|].
      cbn [length]. split; [lia|]. split; [intros H; now rewrite A|].
      split; [intros H H'; now rewrite X|].
      intros H y. cbn [app de de_u8 bind]. now rewrite S.
  - intros b p H. cbn [de self_delimiting] in *. unfold de_option. destruct b as [|x b]; [discriminate|]. cbn [de_u8 bind app].
    destruct x; try discriminate. destruct (de t b) as [[w r']| |q] eqn:E; cbn [bind]; try discriminate.
    intros [= ->] y. now rewrite (f_panic t T _ _ H E).
  - intros b p H. cbn [de has_auth] in *. unfold de_option. destruct b as [|x b]; [discriminate|]. cbn [de_u8 bind].
    destruct x; try discriminate. destruct (de t b) as [[w r']| |q] eqn:E; cbn [bind]; try discriminate.
    now apply (f_no_panic t T) in E.
  - intros [v|] y Hr He Hs; [|reflexivity]. cbn [in_range encodable self_delimiting layout transmitted option_map] in *.
    cbn [app de de_option de_u8 bind]. unfold de_option. cbn [de_u8 bind]. now rewrite (f_round t T).
  - intros [v|] Hr He Hs; [|reflexivity]. cbn [in_range encodable raw_at_end_only layout transmitted option_map] in *.
    cbn [app de]. unfold de_option. cbn [de_u8 bind]. now rewrite (f_round_end t T).
  - intros [v|] Hr; cbn [in_range encodable ser layout] in *.
    + destruct (f_ser t T v Hr) as [(N & e & -> & W)|(N & m & ->)]; cbn [bind].
      * left. split; [exact N|]. eexists. split; [reflexivity|]. cbn [bincode_write flat_map write_ev app].
        fold (bincode_write e). now rewrite W.
      * right. split; [exact N|]. now exists m.
    + left. split; [exact I|]. now exists [EvNone].
  - intros [v|] Hr He; cbn [min_size layout length]; lia.
  - intros [v|]; [|reflexivity]. cbn [transmitted option_map layout]. now rewrite (f_transmitted t T).
Qed.

(** Elements of a sequence. *)
Lemma elements_ok t (T : facts t) n : forall b vs r, seq_elements (de t) n b = Ok (vs, r) ->
  length vs = n /\
  exists c, b = c ++ r /\ Forall (in_range t) vs /\ Forall (encodable t) vs /\ map (transmitted t) vs = vs /\
    (length (flat_map (layout t) vs) <= length c)%nat /\
    (has_auth t = false -> length (flat_map (layout t) vs) = length c) /\
    (has_auth t = false -> has_introduction t = false -> flat_map (layout t) vs = c) /\
    (self_delimiting t = true -> forall y, seq_elements (de t) n (c ++ y) = Ok (vs, y)).
Proof.
  induction n as [|n IH]; intros b vs r; cbn [seq_elements].
  - intros [= <- <-]. split; [reflexivity|]. exists []. repeat split; auto.
  - destruct (de t b) as [[x b1]| |] eqn:E1; cbn [bind]; try discriminate.
    destruct (seq_elements (de t) n b1) as [[xs b2]| |] eqn:E2; cbn [bind]; try discriminate.
    intros [= <- <-].
    destruct (f_ok t T _ _ _ E1) as (c1 & -> & R1 & N1 & T1 & L1 & A1 & X1 & S1).
    destruct (IH _ _ _ E2) as (Hn & c2 & -> & R2 & N2 & T2 & L2 & A2 & X2 & S2).
    split; [cbn; now rewrite Hn|].
    exists (c1 ++ c2). rewrite <- app_assoc. split; [reflexivity|].
    do 2 (split; [now constructor|]). cbn [map flat_map]. split; [now rewrite T1, T2|].
    rewrite !app_length. split; [lia|]. split; [intros H; rewrite A1, A2 by assumption; lia|].
    split; [intros H H'; now rewrite X1, X2|].
    intros H y. rewrite <- app_assoc, S1 by assumption. cbn [bind]. now rewrite S2 by assumption.
Qed.
Lemma elements_panic t (T : facts t) n : forall b p, self_delimiting t = true ->
  seq_elements (de t) n b = Panic p -> forall y, seq_elements (de t) n (b ++ y) = Panic p.
Proof.
  induction n as [|n IH]; intros b p Hs; cbn [seq_elements]; [discriminate|].
  destruct (de t b) as [[x b1]| |q] eqn:E1; cbn [bind]; try discriminate.
  - destruct (seq_elements (de t) n b1) as [[xs b2]| |q] eqn:E2; cbn [bind]; try discriminate.
    intros [= ->] y. destruct (f_ok t T _ _ _ E1) as (c1 & -> & _ & _ & _ & _ & _ & _ & S1).
    rewrite <- app_assoc, S1 by assumption. cbn [bind]. now rewrite (IH _ _ Hs E2).
  - intros [= ->] y. now rewrite (f_panic t T _ _ Hs E1).
Qed.
Lemma elements_no_panic t (T : facts t) n : forall b p, has_auth t = false -> seq_elements (de t) n b <> Panic p.
Proof.
  induction n as [|n IH]; intros b p Hs; cbn [seq_elements]; [discriminate|].
  destruct (de t b) as [[x b1]| |q] eqn:E1; cbn [bind]; try discriminate.
  - destruct (seq_elements (de t) n b1) as [[xs b2]| |q] eqn:E2; cbn [bind]; try discriminate.
    now apply IH in E2.
  - now apply (f_no_panic t T) in E1.
Qed.
Lemma elements_round t (T : facts t) vs : forall y,
  Forall (in_range t) vs -> Forall (encodable t) vs -> self_delimiting t = true ->
  seq_elements (de t) (length vs) (flat_map (layout t) vs ++ y) = Ok (map (transmitted t) vs, y).
Proof.
  induction vs as [|v vs IH]; intros y Hr He Hs; [reflexivity|].
  inversion Hr; subst. inversion He; subst. cbn [length flat_map seq_elements map].
  rewrite <- app_assoc, (f_round t T) by assumption. cbn [bind]. now rewrite IH.
Qed.
Lemma elements_ser t (T : facts t) vs :
  Forall (in_range t) vs ->
  (Forall (encodable t) vs /\ exists evs, ser_seq (map (ser t) vs) = Ok evs /\ bincode_write evs = flat_map (layout t) vs) \/
  (~ Forall (encodable t) vs /\ custom (ser_seq (map (ser t) vs))).
Proof.
  induction 1 as [|v vs Hv Hvs IH]; [left; split; [constructor|now exists []]|].
  cbn [map ser_seq flat_map].
  destruct (f_ser t T v Hv) as [(N & e & -> & W)|(N & m & ->)]; cbn [bind].
  - destruct IH as [(N2 & e2 & -> & W2)|(N2 & m & ->)]; cbn [bind].
    + left. split; [now constructor|]. eexists. split; [reflexivity|]. now rewrite bincode_write_app, W, W2.
    + right. split; [intros H; inversion H; contradiction|]. now exists m.
  - right. split; [intros H; inversion H; contradiction|]. now exists m.
Qed.

Lemma de_u64_app p r : length p = 8%nat -> de_u64 (p ++ r) = Ok (be_value p, r).
Proof.
  intros H. unfold de_u64, de_uint. rewrite app_length_ge by assumption.
  now rewrite firstn_app_exact, skipn_app_exact by assumption.
Qed.
Lemma de_u32_app p r : length p = 4%nat -> de_u32 (p ++ r) = Ok (be_value p, r).
Proof.
  intros H. unfold de_u32, de_uint. rewrite app_length_ge by assumption.
  now rewrite firstn_app_exact, skipn_app_exact by assumption.
Qed.
Lemma de_uint_split k b n r : de_uint k b = Ok (n, r) ->
  exists p, b = p ++ r /\ length p = k /\ be_value p = n /\ n < 256 ^ N.of_nat k.
Proof.
  unfold de_uint. destruct (Nat.ltb_spec (length b) k) as [H|H]; [discriminate|]. intros [= <- <-].
  exists (firstn k b). rewrite firstn_skipn, firstn_length_le by assumption.
  repeat split. now apply be_value_firstn_lt.
Qed.
Lemma de_uint_no_panic k b p : de_uint k b <> Panic p.
Proof. unfold de_uint. destruct (_ <? _)%nat; discriminate. Qed.

Lemma layout_vec t (v : list (tval t)) : layout (TVec t) v = u64_bytes (len v) ++ flat_map (layout t) v.
Proof. reflexivity. Qed.
Lemma facts_vec_of t : facts t -> facts (TVec t).
Proof.
  intros T.
  assert (Hround : forall v y, in_range (TVec t) v -> encodable (TVec t) v -> self_delimiting t = true ->
    de (TVec t) (layout (TVec t) v ++ y) = Ok (transmitted (TVec t) v, y)).
  { intros v y [Hl Hr] He Hs. cbn [de layout transmitted]. unfold de_vec.
    rewrite <- app_assoc, <- be8, de_u64_app by apply be_length. cbn [bind].
    rewrite be_value_be_small by exact Hl.
    replace (N.to_nat (len v)) with (length v) by (unfold len; lia).
    now apply elements_round. }
  constructor.
  - intros b v r. cbn [de]. change (tval (TVec t)) with (list (tval t)) in v. unfold de_vec, de_u64.
    destruct (de_uint 8 b) as [[n b1]| |] eqn:E; cbn [bind]; try discriminate. intros H.
    apply de_uint_split in E as (p & -> & Hp & Hn & Hlt).
    destruct (elements_ok t T _ _ _ _ H) as (Hlen & c & -> & R & N & Tr & L & A & X & S).
    assert (Hv : len v = n) by (unfold len; rewrite Hlen; lia).
    exists (p ++ c). rewrite <- app_assoc. split; [reflexivity|].
    cbn [encodable transmitted has_auth has_introduction self_delimiting].
    split; [split; [|exact R]|]. { rewrite <- Hv in Hlt. exact Hlt. }
    split; [exact N|]. split; [exact Tr|].
    rewrite layout_vec. rewrite <- be8, Hv, <- Hn, <- Hp, be_be_value, !app_length.
    split; [lia|]. split; [intros Ha; now rewrite A|]. split; [intros Ha Hi; now rewrite X|].
    intros Hs y. rewrite <- app_assoc. pose proof (de_u64_app p (c ++ y) Hp) as Hu. unfold de_u64 in Hu. rewrite ?Hp, Hu. cbn [bind].
    rewrite Hn. now apply S.
  - intros b p Hs. cbn [de self_delimiting] in *. unfold de_vec, de_u64.
    destruct (de_uint 8 b) as [[n b1]| |q] eqn:E; cbn [bind]; try discriminate.
    + intros H y. apply de_uint_split in E as (x & -> & Hp & Hn & Hlt).
      rewrite <- app_assoc. fold de_u64. rewrite de_u64_app by assumption. cbn [bind]. rewrite Hn.
      now apply elements_panic.
    + now apply de_uint_no_panic in E.
  - intros b p Hs. cbn [de has_auth] in *. unfold de_vec, de_u64.
    destruct (de_uint 8 b) as [[n b1]| |q] eqn:E; cbn [bind]; try discriminate.
    + now apply elements_no_panic.
    + now apply de_uint_no_panic in E.
  - exact Hround.
  - intros v Hr He Hs. rewrite <- (app_nil_r (layout (TVec t) v)). now apply Hround.
  - intros v [Hl Hr]. cbn [ser encodable layout].
    destruct (elements_ser t T v Hr) as [(N & e & -> & W)|(N & m & ->)]; cbn [bind].
    + left. split; [exact N|]. eexists. split; [reflexivity|].
      cbn [bincode_write flat_map write_ev]. fold (bincode_write e). now rewrite W, be8.
    + right. split; [exact N|]. now exists m.
  - intros v Hr He. cbn [min_size layout]. rewrite app_length. cbn. lia.
  - intros v. cbn [layout transmitted]. unfold len. rewrite map_length. f_equal.
    induction v as [|x v IH]; [reflexivity|]. cbn [map flat_map]. now rewrite IH, (f_transmitted t T).
Qed.

(** Variants of an enum. *)
Record factsv (vs : tys) : Prop := {
  fv_ok : forall i b v r, dealts vs i b = Ok (v, r) ->
    i = variant_index vs v /\
    exists c, b = c ++ r /\ variant_in_range vs v /\ variant_encodable vs v /\ variant_transmitted vs v = v /\
      (length (variant_layout vs v) <= length c)%nat /\
      (have_auth vs = false -> length (variant_layout vs v) = length c) /\
      (have_auth vs = false -> have_introduction vs = false -> variant_layout vs v = c) /\
      (all_self_delimiting vs = true -> forall y, dealts vs i (c ++ y) = Ok (v, y));
  fv_panic : forall i b p, all_self_delimiting vs = true -> dealts vs i b = Panic p ->
    forall y, dealts vs i (b ++ y) = Panic p;
  fv_no_panic : forall i b p, have_auth vs = false -> dealts vs i b <> Panic p;
  fv_round : forall v y, variant_in_range vs v -> variant_encodable vs v -> all_self_delimiting vs = true ->
    dealts vs (variant_index vs v) (variant_layout vs v ++ y) = Ok (variant_transmitted vs v, y);
  fv_round_end : forall v, variant_in_range vs v -> variant_encodable vs v -> all_raw_at_end_only vs = true ->
    dealts vs (variant_index vs v) (variant_layout vs v) = Ok (variant_transmitted vs v, []);
  fv_ser : forall v k, variant_in_range vs v ->
    (variant_encodable vs v /\ exists evs, seralts vs k v = Ok (EvVariant (k + variant_index vs v) :: evs) /\
       bincode_write evs = variant_layout vs v) \/
    (~ variant_encodable vs v /\ custom (seralts vs k v));
  fv_transmitted : forall v, variant_layout vs (variant_transmitted vs v) = variant_layout vs v /\
    variant_index vs (variant_transmitted vs v) = variant_index vs v
}.

Lemma factsv_nil : factsv FNil.
Proof. constructor; cbn; try easy; intros []. Qed.

Lemma factsv_cons t vs : facts t -> factsv vs -> factsv (FCons t vs).
Proof.
  intros T F. constructor.
  - intros i b v r. cbn [dealts]. destruct (N.eqb_spec i 0) as [->|Hi].
    + destruct (de t b) as [[x b1]| |] eqn:E; cbn [bind]; try discriminate. intros [= <- <-].
      destruct (f_ok t T _ _ _ E) as (c & -> & R & N & Tr & L & A & X & S).
      split; [reflexivity|]. exists c.
      cbn [variant_in_range variant_encodable variant_transmitted variant_layout have_auth have_introduction all_self_delimiting].
      split; [reflexivity|]. do 2 (split; [assumption|]). split; [now rewrite Tr|]. split; [assumption|].
      split; [intros H; apply orb_false_iff in H as [H _]; auto|].
      split; [intros H H'; apply orb_false_iff in H as [H _]; apply orb_false_iff in H' as [H' _]; auto|].
      intros H y. apply andb_true_iff in H as [H _]. cbn [N.eqb]. now rewrite S.
    + destruct (dealts vs (N.pred i) b) as [[x b1]| |] eqn:E; cbn [bind]; try discriminate. intros [= <- <-].
      destruct (fv_ok vs F _ _ _ _ E) as (Ei & c & -> & R & N & Tr & L & A & X & S).
      split; [cbn [variant_index]; lia|]. exists c.
      cbn [variant_in_range variant_encodable variant_transmitted variant_layout have_auth have_introduction all_self_delimiting].
      split; [reflexivity|]. do 2 (split; [assumption|]). split; [now rewrite Tr|]. split; [assumption|].
      split; [intros H; apply orb_false_iff in H as [_ H]; auto|].
      split; [intros H H'; apply orb_false_iff in H as [_ H]; apply orb_false_iff in H' as [_ H']; auto|].
      intros H y. apply andb_true_iff in H as [_ H]. now rewrite S.
  - intros i b p H. cbn [dealts all_self_delimiting] in *. apply andb_true_iff in H as [H1 H2].
    destruct (N.eqb_spec i 0) as [->|Hi].
    + destruct (de t b) as [[x b1]| |q] eqn:E; cbn [bind]; try discriminate.
      intros [= ->] y. now rewrite (f_panic t T _ _ H1 E).
    + destruct (dealts vs (N.pred i) b) as [[x b1]| |q] eqn:E; cbn [bind]; try discriminate.
      intros [= ->] y. now rewrite (fv_panic vs F _ _ _ H2 E).
  - intros i b p H. cbn [dealts have_auth] in *. apply orb_false_iff in H as [H1 H2].
    destruct (N.eqb_spec i 0) as [->|Hi].
    + destruct (de t b) as [[x b1]| |q] eqn:E; cbn [bind]; try discriminate.
      now apply (f_no_panic t T) in E.
    + destruct (dealts vs (N.pred i) b) as [[x b1]| |q] eqn:E; cbn [bind]; try discriminate.
      now apply (fv_no_panic vs F) in E.
  - intros [v|v] y Hr He H; cbn [all_self_delimiting] in H; apply andb_true_iff in H as [H1 H2];
      cbn [dealts variant_index variant_layout variant_transmitted variant_in_range variant_encodable] in *.
    + cbn [N.eqb]. now rewrite (f_round t T).
    + destruct (N.eqb_spec (1 + variant_index vs v) 0); [lia|].
      replace (N.pred (1 + variant_index vs v)) with (variant_index vs v) by lia.
      now rewrite (fv_round vs F).
  - intros [v|v] Hr He H; cbn [all_raw_at_end_only] in H; apply andb_true_iff in H as [H1 H2];
      cbn [dealts variant_index variant_layout variant_transmitted variant_in_range variant_encodable] in *.
    + cbn [N.eqb]. now rewrite (f_round_end t T).
    + destruct (N.eqb_spec (1 + variant_index vs v) 0); [lia|].
      replace (N.pred (1 + variant_index vs v)) with (variant_index vs v) by lia.
      now rewrite (fv_round_end vs F).
  - intros [v|v] k Hr;
      cbn [seralts variant_index variant_layout variant_in_range variant_encodable] in *.
    + destruct (f_ser t T v Hr) as [(N & e & -> & W)|(N & m & ->)]; cbn [bind].
      * left. split; [exact N|]. exists e. now rewrite N.add_0_r.
      * right. split; [exact N|]. now exists m.
    + destruct (fv_ser vs F v (N.succ k) Hr) as [(N & e & -> & W)|(N & m & ->)].
      * left. split; [exact N|]. exists e. split; [|exact W]. do 2 f_equal. f_equal. lia.
      * right. split; [exact N|]. now exists m.
  - intros [v|v]; cbn [variant_index variant_layout variant_transmitted].
    + now rewrite (f_transmitted t T).
    + destruct (fv_transmitted vs F v) as [-> ->]. auto.
Qed.

Lemma facts_enum vs : factsv vs -> facts (TEnum vs).
Proof.
  intros F. constructor.
  - intros b v r. cbn [de]. unfold de_u32.
    destruct (de_uint 4 b) as [[n b1]| |] eqn:E; cbn [bind]; try discriminate. intros H.
    apply de_uint_split in E as (p & -> & Hp & Hn & Hlt).
    destruct (fv_ok vs F _ _ _ _ H) as (Ei & c & -> & R & N & Tr & L & A & X & S).
    exists (p ++ c). rewrite <- app_assoc. split; [reflexivity|].
    cbn [in_range encodable transmitted layout has_auth has_introduction self_delimiting].
    split; [split; [rewrite <- Ei; exact Hlt|exact R]|]. split; [exact N|]. split; [exact Tr|].
    rewrite <- be4, <- Ei, <- Hn, <- Hp, be_be_value, !app_length.
    split; [lia|]. split; [intros Ha; now rewrite A|]. split; [intros Ha Hi; now rewrite X|].
    intros Hs y. rewrite <- app_assoc. pose proof (de_u32_app p (c ++ y) Hp) as Hu. unfold de_u32 in Hu. rewrite ?Hp, Hu. cbn [bind].
    rewrite Hn. now apply S.
  - intros b p Hs. cbn [de self_delimiting] in *. unfold de_u32.
    destruct (de_uint 4 b) as [[n b1]| |q] eqn:E; cbn [bind]; try discriminate.
    + intros H y. apply de_uint_split in E as (x & -> & Hp & Hn & Hlt).
      rewrite <- app_assoc. pose proof (de_u32_app x (b1 ++ y) Hp) as Hu. unfold de_u32 in Hu. rewrite Hu. cbn [bind]. rewrite Hn.
      now apply (fv_panic vs F).
    + now apply de_uint_no_panic in E.
  - intros b p Hs. cbn [de has_auth] in *. unfold de_u32.
    destruct (de_uint 4 b) as [[n b1]| |q] eqn:E; cbn [bind]; try discriminate.
    + now apply (fv_no_panic vs F).
    + now apply de_uint_no_panic in E.
  - intros v y [Hi Hr] He Hs. cbn [de layout transmitted self_delimiting encodable] in *.
    rewrite <- app_assoc, <- be4, de_u32_app by apply be_length. cbn [bind].
    rewrite be_value_be_small by exact Hi. now apply (fv_round vs F).
  - intros v [Hi Hr] He Hs. cbn [de layout transmitted raw_at_end_only encodable] in *.
    rewrite <- be4, de_u32_app by apply be_length. cbn [bind].
    rewrite be_value_be_small by exact Hi. now apply (fv_round_end vs F).
  - intros v [Hi Hr]. cbn [ser encodable layout].
    destruct (fv_ser vs F v 0 Hr) as [(N & e & -> & W)|(N & m & ->)].
    + left. split; [exact N|]. eexists. split; [reflexivity|].
      cbn [bincode_write flat_map write_ev]. fold (bincode_write e). now rewrite W, be4.
    + right. split; [exact N|]. now exists m.
  - intros v Hr He. cbn [min_size layout]. rewrite app_length. cbn. lia.
  - intros v. cbn [layout transmitted]. now destruct (fv_transmitted vs F v) as [-> ->].
Qed.

Theorem facts_all : (forall t, facts t) /\ (forall fs, factss fs /\ factsv fs).
Proof.
  apply ty_tys_ind.
  - exact facts_u8.
  - exact facts_u16.
  - exact facts_u32.
  - exact facts_u64.
  - exact facts_vec.
  - exact facts_bits.
  - exact facts_address.
  - exact facts_varlen16.
  - exact facts_varlen32.
  - exact facts_varlen64.
  - exact facts_rawend.
  - exact facts_nested.
  - exact facts_time.
  - exact facts_puncture.
  - exact facts_puncture_request.
  - exact facts_introduction_request.
  - exact facts_introduction_response.
  - exact facts_bin_member.
  - intros fs [F _]. now apply facts_struct.
  - exact facts_bool.
  - exact facts_i8.
  - exact facts_i16.
  - exact facts_i32.
  - exact facts_i64.
  - exact facts_u128.
  - exact facts_i128.
  - exact facts_f32.
  - exact facts_f64.
  - exact facts_char.
  - exact facts_string.
  - exact facts_option.
  - exact facts_vec_of.
  - intros vs [_ F]. now apply facts_enum.
  - split; [exact factss_nil|exact factsv_nil].
  - intros t T fs [F V]. split; [now apply factss_cons|now apply factsv_cons].
Qed.
Definition facts_of (t : ty) : facts t := proj1 facts_all t.
