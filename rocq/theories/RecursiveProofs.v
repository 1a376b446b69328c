(** * RecursiveProofs: proofs about Recursive.v *)
From Coq Require Import Strings.String.
From Verif Require Import Base Serde Codec Universe Spec SerdeFacts CodecFacts UniverseFacts Packet PacketFacts Custom CustomSpec FieldProofs CustomProofs CostProofs
  DeriveProofs Recursive RecursiveSpec.
Open Scope nat_scope.

Scheme rty_mut := Induction for rty Sort Prop with rtys_mut := Induction for rtys Sort Prop.
Combined Scheme rty_rtys_ind from rty_mut, rtys_mut.
Scheme enc_mut := Minimality for encodes Sort Prop with encf_mut := Minimality for encodes_fields Sort Prop
  with ence_mut := Minimality for encodes_elements Sort Prop with encv_mut := Minimality for encodes_variant Sort Prop.
Combined Scheme encodes_all_ind from enc_mut, encf_mut, ence_mut, encv_mut.

Lemma rval_full_ind (P : rval -> Prop) :
  (forall t v, P (VBase t v)) -> (forall l, Forall P l -> P (VStruct l)) -> P VNone -> (forall v, P v -> P (VSome v)) ->
  (forall l, Forall P l -> P (VVec l)) -> (forall i v, P v -> P (VVariant i v)) -> (forall v, P v -> P (VBox v)) -> forall v, P v.
Proof.
  intros H1 H2 H3 H4 H5 H6 H7. fix IH 1. intros [t v|l| |v|l|i v|v].
  - apply H1.
  - apply H2. induction l as [|v l IL]; constructor; [apply IH|exact IL].
  - exact H3.
  - apply H4, IH.
  - apply H5. induction l as [|v l IL]; constructor; [apply IH|exact IL].
  - apply H6, IH.
  - apply H7, IH.
Qed.
Lemma depth_pos v : 1 <= depth v.
Proof. destruct v; cbn; lia. Qed.
Lemma u32_write i rest : (i < 2 ^ 32)%N -> de_u32 (u32_bytes i ++ rest) = Ok (i, rest).
Proof. intros H. exact (f_round TU32 (facts_of TU32) i rest H Logic.I eq_refl). Qed.
Lemma u64_write i rest : (i < 2 ^ 64)%N -> de_u64 (u64_bytes i ++ rest) = Ok (i, rest).
Proof. intros H. exact (f_round TU64 (facts_of TU64) i rest H Logic.I eq_refl). Qed.
Lemma leb_max a b k : (Nat.max a b <=? k) = (a <=? k) && (b <=? k).
Proof. destruct (Nat.leb_spec a k), (Nat.leb_spec b k), (Nat.leb_spec (Nat.max a b) k); cbn; lia. Qed.

Lemma reads_exactly D :
  (forall t v b, encodes D t v b -> forall k rest,
     read D k t (b ++ rest) = if depth v <=? k then Ok (v, rest) else Panic stack_overflow) /\
  (forall fs vs b, encodes_fields D fs vs b -> forall k i len rest, (N.of_nat (rfields fs) <= len)%N ->
     read_fields (read D k) fs i (Access len (b ++ rest)) =
     if list_max (map depth vs) <=? k then Ok (vs, Access (len - N.of_nat (rfields fs))%N rest) else Panic stack_overflow) /\
  (forall t l b, encodes_elements D t l b -> forall k rest,
     seq_elements (read D k t) (length l) (b ++ rest) = if list_max (map depth l) <=? k then Ok (l, rest) else Panic stack_overflow) /\
  (forall vs i v b, encodes_variant D vs i v b -> forall k rest,
     read_variant (read D k) vs i (b ++ rest) = if depth v <=? k then Ok (v, rest) else Panic stack_overflow).
Proof.
  apply encodes_all_ind.
  - intros t v SD R E T k rest. destruct k; [reflexivity|]. cbn. pose proof (f_round t (facts_of t) v rest R E SD) as F. rewrite T in F. now rewrite F.
  - intros fs vs b _ IH k rest. destruct k; [reflexivity|]. cbn [read depth Nat.leb]. unfold deserialize_tuple.
    rewrite IH by lia. destruct (_ <=? k); reflexivity.
  - intros t k rest. destruct k; reflexivity.
  - intros t v b _ IH k rest. destruct k; [reflexivity|]. cbn. rewrite IH. destruct (depth v <=? k); reflexivity.
  - intros t l b _ IH L k rest. destruct k; [reflexivity|]. cbn [read depth Nat.leb]. unfold de_vec. rewrite <- app_assoc, u64_write by exact L.
    cbn [bind]. rewrite Nat2N.id, IH. destruct (_ <=? k); reflexivity.
  - intros vs i v b _ IH L k rest. destruct k; [reflexivity|]. cbn [read depth Nat.leb]. rewrite <- app_assoc, u32_write by exact L.
    cbn [bind]. rewrite IH. destruct (_ <=? k); reflexivity.
  - intros i v b _ IH k rest. destruct k; [reflexivity|]. cbn. rewrite IH. destruct (depth v <=? k); reflexivity.
  - intros k i len rest _. cbn. now rewrite N.sub_0_r.
  - intros t fs v vs b c _ IH1 _ IH2 k i len rest L. cbn [rfields] in L. cbn [read_fields map list_max fold_right]. fold (list_max (map depth vs)).
    unfold next_required, next_element. cbn [acc_len acc_rest]. destruct (N.eqb_spec len 0); [lia|]. rewrite <- app_assoc, IH1, leb_max.
    destruct (depth v <=? k); [|reflexivity]. cbn [bind andb]. rewrite IH2 by lia. destruct (_ <=? k); [|reflexivity]. cbn [bind rfields].
    replace (N.pred len - N.of_nat (rfields fs))%N with (len - N.of_nat (S (rfields fs)))%N by lia. reflexivity.
  - intros t k rest. reflexivity.
  - intros t v l b c _ IH1 _ IH2 k rest. cbn [length seq_elements map list_max fold_right]. fold (list_max (map depth l)). rewrite <- app_assoc, IH1, leb_max.
    destruct (depth v <=? k); [|reflexivity]. cbn [bind andb]. rewrite IH2. destruct (_ <=? k); reflexivity.
  - intros t vs v b _ IH k rest. cbn [read_variant]. exact (IH k rest).
  - intros t vs i v b _ IH k rest. cbn [read_variant]. destruct (N.eqb_spec (N.succ i) 0); [lia|]. rewrite N.pred_succ. apply IH.
Qed.

(** ** C140 *)
(** C140. Reading a value takes exactly as much of the stack as the value is nested deep; with less the process is aborted. *)
Lemma p_C140_exact :
  forall (D : types) (t : rty) (v : rval) (b rest : list byte) (stack : nat),
    encodes D t v b ->
    read D stack t (b ++ rest) = if depth v <=? stack then Ok (v, rest) else Panic stack_overflow.
Proof. intros D t v b rest stack H. now apply (reads_exactly D). Qed.

Lemma writes_exactly D :
  (forall t v b, encodes D t v b -> forall k,
     if depth v <=? k then exists evs, write k v = Ok evs /\ bincode_write evs = b else write k v = Panic stack_overflow) /\
  (forall fs vs b, encodes_fields D fs vs b -> forall k,
     if list_max (map depth vs) <=? k then exists evs, ser_seq (map (write k) vs) = Ok evs /\ bincode_write evs = b
     else ser_seq (map (write k) vs) = Panic stack_overflow) /\
  (forall t l b, encodes_elements D t l b -> forall k,
     if list_max (map depth l) <=? k then exists evs, ser_seq (map (write k) l) = Ok evs /\ bincode_write evs = b
     else ser_seq (map (write k) l) = Panic stack_overflow) /\
  (forall vs i v b, encodes_variant D vs i v b -> forall k,
     if depth v <=? k then exists evs, write k v = Ok evs /\ bincode_write evs = b else write k v = Panic stack_overflow).
Proof.
  apply encodes_all_ind.
  - intros t v SD R E T k. destruct k; [reflexivity|]. cbn [depth Nat.leb write]. destruct (f_ser t (facts_of t) v R) as [[_ X]|[X _]]; [exact X|contradiction].
  - intros fs vs b _ IH k. destruct k; [reflexivity|]. cbn [depth Nat.leb write]. specialize (IH k). destruct (_ <=? k).
    + destruct IH as (evs & -> & <-). cbn [bind]. eexists. split; reflexivity.
    + now rewrite IH.
  - intros t k. destruct k; [reflexivity|]. cbn. eexists. split; reflexivity.
  - intros t v b _ IH k. destruct k; [reflexivity|]. cbn [depth Nat.leb write]. specialize (IH k). destruct (_ <=? k).
    + destruct IH as (evs & -> & <-). cbn [bind]. eexists. split; reflexivity.
    + now rewrite IH.
  - intros t l b _ IH L k. destruct k; [reflexivity|]. cbn [depth Nat.leb write]. specialize (IH k). destruct (_ <=? k).
    + destruct IH as (evs & -> & <-). cbn [bind]. eexists. split; [reflexivity|]. cbn [bincode_write flat_map write_ev]. now rewrite be8.
    + now rewrite IH.
  - intros vs i v b _ IH L k. destruct k; [reflexivity|]. cbn [depth Nat.leb write]. specialize (IH k). destruct (_ <=? k).
    + destruct IH as (evs & -> & <-). cbn [bind]. eexists. split; [reflexivity|]. cbn [bincode_write flat_map write_ev]. now rewrite be4.
    + now rewrite IH.
  - intros i v b _ IH k. destruct k; [reflexivity|]. cbn [depth Nat.leb write]. apply IH.
  - intros k. cbn. eexists. split; reflexivity.
  - intros t fs v vs b c _ IH1 _ IH2 k. cbn [map list_max fold_right ser_seq]. fold (list_max (map depth vs)). rewrite leb_max.
    specialize (IH1 k). specialize (IH2 k). destruct (depth v <=? k); cbn [andb].
    + destruct IH1 as (e1 & -> & <-). cbn [bind]. destruct (_ <=? k).
      * destruct IH2 as (e2 & -> & <-). cbn [bind]. eexists. split; [reflexivity|]. apply bincode_write_app.
      * now rewrite IH2.
    + now rewrite IH1.
  - intros t k. cbn. eexists. split; reflexivity.
  - intros t v vs b c _ IH1 _ IH2 k. cbn [map list_max fold_right ser_seq]. fold (list_max (map depth vs)). rewrite leb_max.
    specialize (IH1 k). specialize (IH2 k). destruct (depth v <=? k); cbn [andb].
    + destruct IH1 as (e1 & -> & <-). cbn [bind]. destruct (_ <=? k).
      * destruct IH2 as (e2 & -> & <-). cbn [bind]. eexists. split; [reflexivity|]. apply bincode_write_app.
      * now rewrite IH2.
    + now rewrite IH1.
  - auto.
  - auto.
Qed.

(** C140. Writing takes the same. *)
Lemma p_C140_write :
  forall (D : types) (t : rty) (v : rval) (b : list byte) (stack : nat),
    encodes D t v b ->
    if depth v <=? stack then serializes (recursive D stack t) v b else calls (recursive D stack t) v = Panic stack_overflow.
Proof. intros D t v b k H. exact (proj1 (writes_exactly D) t v b H k). Qed.

(** C140. So a value of any depth can be added to a packet and is read back by [next_payload], on machines with enough stack; on any other,
    [next_payload] aborts the process. *)
Lemma p_C140_payload :
  forall (D : types) (t : rty) (v : rval) (b before after : list byte) (stack : nat),
    encodes D t v b ->
    let d := Deserializer (Packet (before ++ b ++ after)) (length before) in
    (depth v <= stack ->
       custom_add (recursive D stack t) (Packet before) v = (Packet (before ++ b), Ok tt) /\
       custom_next (recursive D stack t) d = (Deserializer (Packet (before ++ b ++ after)) (length (before ++ b)), Ok v)) /\
    (stack < depth v -> custom_next (recursive D stack t) d = (d, Panic stack_overflow)).
Proof.
  intros D t v b before after k H d. pose proof (p_C140_exact D t v b after k H) as R. pose proof (p_C140_write D t v b k H) as W.
  assert (SL : slice_from (packet_bytes (pntr d)) (index d) = Some (b ++ after)).
  { unfold slice_from. cbn. rewrite app_length. destruct (Nat.leb_spec (length before) (length before + length (b ++ after))); [|lia].
    rewrite skipn_app, skipn_all, Nat.sub_diag. reflexivity. }
  unfold custom_next. rewrite SL. cbn [or_panic bind parse recursive]. rewrite R. split; intros L.
  - rewrite (proj2 (Nat.leb_le _ _) L) in *. destruct W as (cs & C & W). split.
    + unfold custom_add, packet_extend. rewrite C. cbn. now rewrite W.
    + cbn [bind]. unfold recursive in C |- *. cbn [calls] in C |- *. rewrite C. cbn [bincode_serialized_size bind]. subst d. cbn. rewrite bincode_size_write, W, app_length.
      reflexivity.
  - rewrite (proj2 (Nat.leb_gt _ _) L). reflexivity.
Qed.

(** ** More stack *)
Definition more (r1 r2 : rty -> list byte -> dres rval) : Prop := forall t b, r1 t b <> Panic stack_overflow -> r2 t b = r1 t b.
Ltac same H := match goal with |- context [bind ?o _] => let E := fresh in assert (E : o <> Panic stack_overflow) by (intros E; apply H; now rewrite E) end.
Lemma more_fields r1 r2 : more r1 r2 -> forall fs i s, read_fields r1 fs i s <> Panic stack_overflow -> read_fields r2 fs i s = read_fields r1 fs i s.
Proof.
  intros M. induction fs as [|t fs IH]; intros i s N; [reflexivity|]. cbn [read_fields] in *. unfold next_required, next_element in *.
  destruct (acc_len s =? 0)%N; [reflexivity|]. assert (E : r1 t (acc_rest s) <> Panic stack_overflow) by (intros E; apply N; now rewrite E).
  rewrite (M _ _ E). destruct (r1 t (acc_rest s)) as [[v r]| |]; try reflexivity. cbn [bind] in *.
  rewrite IH; [reflexivity|]. intros Q. apply N. now rewrite Q.
Qed.
Lemma more_variant r1 r2 : more r1 r2 -> forall vs i b, read_variant r1 vs i b <> Panic stack_overflow -> read_variant r2 vs i b = read_variant r1 vs i b.
Proof.
  intros M. induction vs as [|t vs IH]; intros i b N; [reflexivity|]. cbn [read_variant] in *. destruct (i =? 0)%N; auto.
Qed.
Lemma more_elements r1 r2 t : more r1 r2 -> forall n b, seq_elements (r1 t) n b <> Panic stack_overflow -> seq_elements (r2 t) n b = seq_elements (r1 t) n b.
Proof.
  intros M. induction n as [|n IH]; intros b N; [reflexivity|]. cbn [seq_elements] in *.
  assert (E : r1 t b <> Panic stack_overflow) by (intros E; apply N; now rewrite E). rewrite (M _ _ E).
  destruct (r1 t b) as [[v r]| |]; try reflexivity. cbn [bind] in *. rewrite IH; [reflexivity|]. intros Q. apply N. now rewrite Q.
Qed.
Lemma more_step D k k1 : more (read D k) (read D k1) -> more (read D (S k)) (read D (S k1)).
Proof.
  intros IH t b N. cbn [read] in N |- *. destruct t as [t|fs|t|t|vs|i].
  - reflexivity.
  - unfold deserialize_tuple in *. rewrite (more_fields _ _ IH); [reflexivity|]. intros Q. apply N. now rewrite Q.
  - unfold de_option in *. destruct (de_u8 b) as [[x r]| |]; try reflexivity. cbn [bind] in *. destruct x; try reflexivity.
    rewrite (IH _ _); [reflexivity|]. intros Q. apply N. now rewrite Q.
  - unfold de_vec in *. destruct (de_u64 b) as [[n r]| |]; try reflexivity. cbn [bind] in *. rewrite (more_elements _ _ t IH); [reflexivity|].
    intros Q. apply N. now rewrite Q.
  - destruct (de_u32 b) as [[n r]| |]; try reflexivity. cbn [bind] in *. rewrite (more_variant _ _ IH); [reflexivity|]. intros Q. apply N. now rewrite Q.
  - rewrite (IH _ _); [reflexivity|]. intros Q. apply N. now rewrite Q.
Qed.
Lemma one_more D k : more (read D k) (read D (S k)).
Proof. induction k as [|k IH]; [intros t b N; now contradict N|now apply more_step]. Qed.

(** C140. How much stack there is makes no difference but this: whatever is read, or the error that is reported, is the same with more. *)
Lemma p_C140_more_stack :
  forall (D : types) (t : rty) (b : list byte) (stack more : nat),
    read D stack t b <> Panic stack_overflow -> read D (stack + more) t b = read D stack t b.
Proof.
  intros D t b k m N. induction m as [|m IH]; [now rewrite Nat.add_0_r|]. rewrite Nat.add_succ_r, one_more; [exact IH|]. now rewrite IH.
Qed.

(** ** Types that do not contain themselves *)
Lemma flat_fields fs : nfields (flattens fs) = rfields fs.
Proof. induction fs as [|t fs IH]; cbn; congruence. Qed.

Lemma like_universe :
  (forall t, closed t = true -> forall D k b, height t <= k ->
     read D k t b = let* (v, r) := de (flatten t) b in Ok (value t v, r)) /\
  (forall fs, all_closed fs = true ->
     (forall D k i s, heights fs <= k -> read_fields (read D k) fs i s = let* (v, s) := des (flattens fs) i s in Ok (field_values fs v, s)) /\
     (forall D k i b, heights fs <= k ->
        read_variant (read D k) fs i b =
        let* (v, r) := dealts (flattens fs) i b in Ok (snd (variant_value fs v), r)) /\
     (forall i b v r, dealts (flattens fs) i b = Ok (v, r) -> fst (variant_value fs v) = i)).
Proof.
  apply rty_rtys_ind.
  - intros t _ D k b H. destruct k; [cbn in H; lia|]. reflexivity.
  - intros fs IH C D k b H. destruct k; [cbn in H; lia|]. destruct (IH C) as (A & _). cbn [read flatten de height] in *. unfold deserialize_tuple.
    rewrite A, flat_fields by lia. destruct (des _ _ _) as [[v s]| |]; reflexivity.
  - intros t IH C D k b H. destruct k; [cbn in H; lia|]. cbn [read flatten de height] in *. unfold de_option.
    destruct (de_u8 b) as [[x r]| |]; try reflexivity. cbn [bind]. destruct x; try reflexivity. rewrite (IH C) by lia.
    destruct (de (flatten t) r) as [[v r']| |]; reflexivity.
  - intros t IH C D k b H. destruct k; [cbn in H; lia|]. cbn [read flatten de height] in *. unfold de_vec.
    destruct (de_u64 b) as [[n r]| |]; try reflexivity. cbn [bind].
    assert (X : forall n r, seq_elements (read D k t) n r = let* (l, r) := seq_elements (de (flatten t)) n r in Ok (map (value t) l, r)).
    { clear n r. induction n as [|n IHn]; intros r; [reflexivity|]. cbn [seq_elements]. rewrite (IH C) by lia.
      destruct (de (flatten t) r) as [[v r']| |]; try reflexivity. cbn [bind]. rewrite IHn.
      destruct (seq_elements _ n r') as [[l r2]| |]; reflexivity. }
    rewrite X. destruct (seq_elements _ _ r) as [[l r2]| |]; reflexivity.
  - intros vs IH C D k b H. destruct k; [cbn in H; lia|]. destruct (IH C) as (_ & A & B). cbn [read flatten de height] in *.
    destruct (de_u32 b) as [[n r]| |]; try reflexivity. cbn [bind]. rewrite A by lia. specialize (B n r).
    destruct (dealts (flattens vs) n r) as [[v r2]| |]; try reflexivity. cbn [bind value]. specialize (B _ _ eq_refl).
    destruct (variant_value vs v) as [i x]. cbn in *. now subst i.
  - intros i C. discriminate.
  - intros _. split; [reflexivity|]. split; [reflexivity|]. intros i b v r H. discriminate.
  - intros t IH fs IHs C. cbn [all_closed] in C. apply andb_true_iff in C as [C1 C2]. destruct (IHs C2) as (A & B & E). split; [|split].
    + intros D k i s H. cbn [read_fields flattens des heights] in *. unfold next_required, next_element. destruct (acc_len s =? 0)%N; [reflexivity|].
      rewrite (IH C1) by lia. destruct (de (flatten t) (acc_rest s)) as [[v r]| |]; try reflexivity. cbn [bind]. rewrite A by lia.
      destruct (des (flattens fs) (S i) _) as [[v2 s2]| |]; reflexivity.
    + intros D k i b H. cbn [read_variant flattens dealts heights] in *. destruct (i =? 0)%N.
      * rewrite (IH C1) by lia. destruct (de (flatten t) b) as [[v r]| |]; reflexivity.
      * rewrite B by lia. destruct (dealts (flattens fs) _ b) as [[v r]| |]; try reflexivity. cbn [bind variant_value].
        destruct (variant_value fs v). reflexivity.
    + intros i b v r H. cbn [flattens dealts] in H. destruct (N.eqb_spec i 0) as [->|NE].
      * destruct (de (flatten t) b) as [[x r']| |]; try discriminate. injection H as <- _. reflexivity.
      * destruct (dealts (flattens fs) (N.pred i) b) as [[x r']| |] eqn:Q; try discriminate. injection H as <- _. cbn [variant_value].
        specialize (E _ _ _ _ Q). destruct (variant_value fs x) as [j y]. cbn in *. subst j. now rewrite N.succ_pred.
Qed.
Lemma flat_plain : (forall t, closed t = true -> plain t = true -> has_auth (flatten t) = false) /\
  (forall fs, all_closed fs = true -> all_plain fs = true -> have_auth (flattens fs) = false).
Proof.
  apply rty_rtys_ind; cbn; try discriminate; auto.
  - intros t _ H. now apply negb_true_iff.
  - intros t IH fs IHs C P. apply andb_true_iff in C as [C1 C2]. apply andb_true_iff in P as [P1 P2]. rewrite IH, IHs by assumption. reflexivity.
Qed.

(** C140. A type that does not contain itself is one of those of Universe.v, which all other claims are about: reading it takes as much stack as its declaration is
    nested deep, whatever the packet and however long it is, and with that much nothing aborts or panics. *)
Lemma p_C140_closed_types :
  forall (D : types) (t : rty) (b : list byte) (stack : nat),
    closed t = true -> height t <= stack ->
    read D stack t b = (let* (v, r) := de (flatten t) b in Ok (value t v, r)) /\
    (plain t = true -> forall p, read D stack t b <> Panic p).
Proof.
  intros D t b k C H. split; [now apply like_universe|]. intros P p E. rewrite (proj1 like_universe t C D k b H) in E.
  pose proof (f_no_panic _ (facts_of (flatten t)) b p (proj1 flat_plain t C P)) as N. destruct (de (flatten t) b) as [[v r]| |]; cbn in E; congruence.
Qed.

(** ** Types that contain themselves *)
Lemma rest_fields D k : (forall t b v r, read D k t b = Ok (v, r) -> length r <= length b) ->
  forall fs i s vs s', read_fields (read D k) fs i s = Ok (vs, s') -> length (acc_rest s') <= length (acc_rest s).
Proof.
  intros H. induction fs as [|t fs IH]; intros i s vs s' E; cbn [read_fields] in E; [injection E as _ <-; lia|].
  unfold next_required, next_element in E. destruct (acc_len s =? 0)%N; [discriminate|].
  destruct (read D k t (acc_rest s)) as [[v r]| |] eqn:R; try discriminate. cbn [bind] in E. apply H in R.
  destruct (read_fields _ fs _ _) as [[v2 s2]| |] eqn:Q; try discriminate. injection E as _ <-. apply IH in Q. cbn in Q. lia.
Qed.
Lemma rest_variant D k : (forall t b v r, read D k t b = Ok (v, r) -> length r <= length b) ->
  forall vs i b v r, read_variant (read D k) vs i b = Ok (v, r) -> length r <= length b.
Proof. intros H. induction vs as [|t vs IH]; intros i b v r E; cbn [read_variant] in E; [discriminate|]. destruct (i =? 0)%N; eauto. Qed.
Lemma rest_elements (f : list byte -> dres rval) : (forall b v r, f b = Ok (v, r) -> length r <= length b) ->
  forall n b l r, seq_elements f n b = Ok (l, r) -> length r <= length b.
Proof.
  intros H. induction n as [|n IH]; intros b l r E; cbn [seq_elements] in E; [injection E as _ <-; lia|].
  destruct (f b) as [[v r']| |] eqn:R; try discriminate. cbn [bind] in E. apply H in R.
  destruct (seq_elements f n r') as [[v2 s2]| |] eqn:Q; try discriminate. injection E as _ <-. apply IH in Q. lia.
Qed.
Lemma rest_read D k : forall t b v r, read D k t b = Ok (v, r) -> length r <= length b.
Proof.
  induction k as [|k IH]; intros t b v r E; [discriminate|]. cbn [read] in E. destruct t as [t|fs|t|t|vs|i].
  - destruct (de t b) as [[x r']| |] eqn:Q; try discriminate. injection E as _ <-. eapply rest_of, Q.
  - unfold deserialize_tuple in E. destruct (read_fields _ fs 0 _) as [[x s]| |] eqn:Q; try discriminate. injection E as _ <-.
    apply (rest_fields D k IH) in Q. exact Q.
  - unfold de_option in E. destruct (de_u8 b) as [[x r']| |] eqn:Q; try discriminate. apply rest_u8 in Q. cbn [bind] in E.
    destruct x; try discriminate; [injection E as _ <-; exact Q|].
    destruct (read D k t r') as [[y r2]| |] eqn:R; try discriminate. injection E as _ <-. apply IH in R. lia.
  - unfold de_vec in E. destruct (de_u64 b) as [[n r']| |] eqn:Q; try discriminate. apply rest_uint in Q. cbn [bind] in E.
    destruct (seq_elements _ _ r') as [[y r2]| |] eqn:R; try discriminate. injection E as _ <-.
    apply (rest_elements _ (IH t)) in R. lia.
  - destruct (de_u32 b) as [[n r']| |] eqn:Q; try discriminate. apply rest_uint in Q. cbn [bind] in E.
    destruct (read_variant _ vs n r') as [[y r2]| |] eqn:R; try discriminate. injection E as _ <-.
    apply (rest_variant D k IH) in R. lia.
  - destruct (read D k (D i) b) as [[x r']| |] eqn:Q; try discriminate. injection E as _ <-. eapply IH, Q.
Qed.

(** the stack it takes *)
Definition need (h : nat) (t : rty) (n : nat) : nat := height t + (if guarded t then n else S n) * S h.
Definition needs (h : nat) (fs : rtys) (n : nat) : nat := heights fs + (if all_guarded fs then n else S n) * S h.
Lemma guarded_reads D h : (forall i, guarded (D i) = true /\ plain (D i) = true /\ height (D i) <= h) ->
  forall k t b, plain t = true -> need h t (length b) <= k -> forall p, read D k t b <> Panic p.
Proof.
  intros G. induction k as [|k IH]; intros t b P N p E.
  { unfold need in N. destruct t; cbn in N; lia. }
  assert (loose : forall t n m, m < n -> height t + n * S h <= k -> need h t m <= k).
  { intros t0 n m L Q. unfold need. assert ((if guarded t0 then m else S m) * S h <= n * S h) by (apply Nat.mul_le_mono_r; destruct (guarded t0); lia). lia. }
  cbn [read] in E. destruct t as [t|fs|t|t|vs|i].
  - cbn in P. apply negb_true_iff in P. pose proof (f_no_panic _ (facts_of t) b p P). destruct (de t b) as [[v r]| |]; cbn in E; congruence.
  - unfold deserialize_tuple in E. cbn [plain] in P. assert (NF : needs h fs (length b) <= k) by (unfold need, needs in *; cbn [height guarded] in N; lia).
    assert (X : forall fs i s, all_plain fs = true -> needs h fs (length (acc_rest s)) <= k -> forall p, read_fields (read D k) fs i s <> Panic p).
    { clear - IH. induction fs as [|t fs IHf]; intros i s P N p E; cbn [read_fields] in E; [discriminate|].
      cbn [all_plain] in P. apply andb_true_iff in P as [P1 P2].
      assert (N1 : need h t (length (acc_rest s)) <= k /\ forall m, m <= length (acc_rest s) -> needs h fs m <= k).
      { unfold need, needs in *. cbn [heights all_guarded] in N. set (n := length (acc_rest s)) in *.
        assert (A : (if guarded t then n else S n) * S h <= (if guarded t && all_guarded fs then n else S n) * S h)
          by (apply Nat.mul_le_mono_r; destruct (guarded t), (all_guarded fs); cbn; lia). split; [lia|]. intros m L.
        assert (B : (if all_guarded fs then m else S m) * S h <= (if guarded t && all_guarded fs then n else S n) * S h)
          by (apply Nat.mul_le_mono_r; destruct (guarded t), (all_guarded fs); cbn; lia). lia. }
      destruct N1 as [N1 N2]. unfold next_required, next_element in E. destruct (acc_len s =? 0)%N; [discriminate|].
      pose proof (IH t (acc_rest s) P1 N1) as Q. destruct (read D k t (acc_rest s)) as [[v r]|e|q] eqn:R; cbn [bind] in E; [|discriminate|now apply (Q q)].
      apply rest_read in R. pose proof (IHf (S i) (Access (N.pred (acc_len s)) r) P2 (N2 _ R)) as Q2.
      destruct (read_fields _ fs _ _) as [[x s2]|e|q]; cbn [bind] in E; [discriminate|discriminate|now apply (Q2 q)]. }
    pose proof (X fs 0 (Access (N.of_nat (rfields fs)) b) P NF) as Q.
    destruct (read_fields _ fs 0 _) as [[x s]|e|q]; cbn [bind] in E; [discriminate|discriminate|now apply (Q q)].
  - unfold need in N. cbn [height guarded] in N. unfold de_option in E.
    pose proof (f_no_panic TU8 (facts_of TU8) b) as N8. cbn [de] in N8. destruct (de_u8 b) as [[x r]|e|q] eqn:R; cbn [bind] in E;
      [|discriminate|now apply (N8 q)].
    assert (L : length r < length b) by (unfold de_u8 in R; destruct b; [discriminate|injection R as _ <-; cbn; lia]).
    destruct x; try discriminate. pose proof (IH t r P (loose t (length b) (length r) L ltac:(lia))) as Q.
    destruct (read D k t r) as [[y s]|e|q]; cbn [bind] in E; [discriminate|discriminate|now apply (Q q)].
  - unfold need in N. cbn [height guarded] in N. unfold de_vec in E.
    pose proof (f_no_panic TU64 (facts_of TU64) b) as N8. cbn [de] in N8. destruct (de_u64 b) as [[x r]|e|q] eqn:R; cbn [bind] in E;
      [|discriminate|now apply (N8 q)].
    assert (L : length r < length b) by (destruct (u64_read _ _ _ R) as (u & -> & U & _); rewrite app_length; lia).
    assert (X : forall n r, length r < length b -> forall p, seq_elements (read D k t) n r <> Panic p).
    { clear - IH P N loose. induction n as [|n IHn]; intros r L p E; cbn [seq_elements] in E; [discriminate|].
      pose proof (IH t r P (loose t (length b) (length r) L ltac:(lia))) as Q.
      destruct (read D k t r) as [[y s]|e|q] eqn:R; cbn [bind] in E; [|discriminate|now apply (Q q)].
      apply rest_read in R. pose proof (IHn s ltac:(lia)) as Q2. destruct (seq_elements _ n s) as [[l s2]|e|q]; cbn [bind] in E;
        [discriminate|discriminate|now apply (Q2 q)]. }
    pose proof (X (N.to_nat x) r L) as Q. destruct (seq_elements _ _ r) as [[y s]|e|q]; cbn [bind] in E; [discriminate|discriminate|now apply (Q q)].
  - unfold need in N. cbn [height guarded] in N.
    pose proof (f_no_panic TU32 (facts_of TU32) b) as N8. cbn [de] in N8. destruct (de_u32 b) as [[x r]|e|q] eqn:R; cbn [bind] in E;
      [|discriminate|now apply (N8 q)].
    assert (L : length r < length b) by (destruct (u32_read _ _ _ R) as (u & -> & U & _); rewrite app_length; lia).
    cbn [plain] in P. assert (X : forall vs i, all_plain vs = true -> heights vs + length b * S h <= k -> forall p, read_variant (read D k) vs i r <> Panic p).
    { clear - IH loose L. induction vs as [|t vs IHv]; intros i P N p; cbn [read_variant]; [discriminate|].
      cbn [all_plain] in P. apply andb_true_iff in P as [P1 P2]. cbn [heights] in N. destruct (i =? 0)%N; [|apply IHv; [exact P2|lia]].
      apply IH; [exact P1|]. apply (loose t (length b)); [exact L|lia]. }
    pose proof (X vs x P ltac:(lia)) as Q. destruct (read_variant _ vs x r) as [[y s]|e|q]; cbn [bind] in E; [discriminate|discriminate|now apply (Q q)].
  - unfold need in N. cbn [height guarded] in N. destruct (G i) as (G1 & G2 & G3).
    assert (N1 : need h (D i) (length b) <= k) by (unfold need; rewrite G1; cbn in N; lia).
    pose proof (IH (D i) b G2 N1) as Q. destruct (read D k (D i) b) as [[y s]|e|q]; cbn [bind] in E; [discriminate|discriminate|now apply (Q q)].
Qed.

(** C140. If types contain each other only inside options, vectors and enums, reading ends, whatever the packet: the stack it takes is at most linear in the length
    of the rest of the packet, and with that much nothing aborts or panics. *)
Lemma p_C140_linear_stack :
  forall (D : types) (t : rty) (h : nat) (b : list byte) (stack : nat),
    (forall i, guarded (D i) = true /\ plain (D i) = true /\ height (D i) <= h) -> plain t = true ->
    height t + (length b + 1) * (h + 1) <= stack ->
    forall p, read D stack t b <> Panic p.
Proof.
  intros D t h b k G P N. apply (guarded_reads D h G); [exact P|]. unfold need.
  assert ((if guarded t then length b else S (length b)) * S h <= (length b + 1) * (h + 1)); [|lia].
  rewrite !Nat.add_1_r. apply Nat.mul_le_mono_r. destruct (guarded t); lia.
Qed.

(** C140. But linear it is: a type that is a chain of options takes three calls for every byte, so the packet decides how much stack is used: on any stack there is
    a packet that aborts the process, a third as long as the stack is deep. *)
Lemma p_C140_chain :
  forall (before rest : list byte) (n stack : nat),
    stack <= 3 * n ->
    let d := Deserializer (Packet (before ++ repeat x01 n ++ rest)) (length before) in
    custom_next (recursive chain stack (RBox 0)) d = (d, Panic stack_overflow).
Proof.
  intros before rest n k L d.
  assert (SL : slice_from (packet_bytes (pntr d)) (index d) = Some (repeat x01 n ++ rest)).
  { unfold slice_from. cbn. rewrite app_length. destruct (Nat.leb_spec (length before) (length before + length (repeat x01 n ++ rest))); [|lia].
    rewrite skipn_app, skipn_all, Nat.sub_diag. reflexivity. }
  assert (X : read chain k (RBox 0) (repeat x01 n ++ rest) = Panic stack_overflow).
  { clear SL d. revert k L. induction n as [|n IH]; intros k L; [destruct k; [reflexivity|lia]|].
    destruct k as [|[|[|k]]]; try reflexivity. cbn [repeat app].
    change (read chain (S (S (S k))) (RBox 0) (x01 :: repeat x01 n ++ rest)) with
      (let* (v, r) := (let* (vs, r) := deserialize_tuple 1 (fun s => let* (x, s) := next_required (fun b =>
          let* (o, r) := de_option (read chain k (RBox 0)) b in Ok (match o with Some v => VSome v | None => VNone end, r)) (EInvalidLength 0 "struct") s in
          Ok ([x], s)) (x01 :: repeat x01 n ++ rest) in Ok (VStruct vs, r)) in Ok (VBox v, r)).
    unfold deserialize_tuple, next_required, next_element. cbn [acc_len acc_rest N.eqb]. unfold de_option. cbn [de_u8 bind].
    rewrite IH by lia. reflexivity. }
  unfold custom_next. rewrite SL. cbn [or_panic bind]. unfold recursive. cbn [parse]. now rewrite X.
Qed.

(** C140. A type that contains itself without an option, a vector or an enum in between cannot be read at all: every attempt aborts, also on an empty packet. *)
Lemma p_C140_endless :
  forall (b : list byte) (stack : nat), read endless stack (RBox 0) b = Panic stack_overflow.
Proof.
  intros b k. assert (X : read endless k (RBox 0) b = Panic stack_overflow /\ read endless k (RStruct (RCons (RBox 0) RNil)) b = Panic stack_overflow); [|apply X].
  induction k as [|k [IH1 IH2]]; [split; reflexivity|]. split.
  - cbn [read]. change (endless 0) with (RStruct (RCons (RBox 0) RNil)). now rewrite IH2.
  - cbn [read]. unfold deserialize_tuple. cbn [read_fields]. unfold next_required, next_element. cbn [acc_len acc_rest rfields]. cbn. now rewrite IH1.
Qed.

(** ** next_payload's second pass *)
Definition sized (w : rval -> outcome (list ev)) (v : rval) (b r : list byte) : Prop :=
  exists used evs, b = used ++ r /\ w v = Ok evs /\ length (bincode_write evs) = length used.
Definition sized_list (w : rval -> outcome (list ev)) (l : list rval) (b r : list byte) : Prop :=
  exists used evs, b = used ++ r /\ ser_seq (map w l) = Ok evs /\ length (bincode_write evs) = length used.
Lemma sized_cons w v l b r r2 : sized w v b r -> sized_list w l r r2 -> sized_list w (v :: l) b r2.
Proof.
  intros (u1 & e1 & -> & W1 & L1) (u2 & e2 & -> & W2 & L2). exists (u1 ++ u2), (e1 ++ e2). split; [now rewrite app_assoc|].
  split; [cbn [map ser_seq]; rewrite W1; cbn [bind]; now rewrite W2|]. rewrite bincode_write_app, !app_length. lia.
Qed.
Lemma sized_nil w b : sized_list w [] b b.
Proof. exists [], []. repeat split. Qed.
Lemma read_sized D : (forall i, plain (D i) = true) -> forall k t b v r, plain t = true -> read D k t b = Ok (v, r) -> sized (write k) v b r.
Proof.
  intros G. induction k as [|k IH]; intros t b v r P E; [discriminate|]. cbn [read] in E. destruct t as [t|fs|t|t|vs|i].
  - destruct (de t b) as [[x r']| |] eqn:Q; try discriminate. injection E as <- <-. cbn in P. apply negb_true_iff in P.
    destruct (f_ok _ (facts_of t) _ _ _ Q) as (c & -> & R & EN & _ & _ & L & _).
    destruct (f_ser _ (facts_of t) _ R) as [[_ (evs & S1 & S2)]|[X _]]; [|contradiction].
    exists c, evs. split; [reflexivity|]. split; [exact S1|]. rewrite S2. now apply L.
  - unfold deserialize_tuple in E. destruct (read_fields _ fs 0 _) as [[x s]| |] eqn:Q; try discriminate. injection E as <- <-. cbn [plain] in P.
    assert (X : forall fs i s vs s', all_plain fs = true -> read_fields (read D k) fs i s = Ok (vs, s') -> sized_list (write k) vs (acc_rest s) (acc_rest s')).
    { clear - IH. induction fs as [|t fs IHf]; intros i s vs s' P E; cbn [read_fields] in E; [injection E as <- <-; apply sized_nil|].
      cbn [all_plain] in P. apply andb_true_iff in P as [P1 P2]. unfold next_required, next_element in E. destruct (acc_len s =? 0)%N; [discriminate|].
      destruct (read D k t (acc_rest s)) as [[v r]| |] eqn:R; try discriminate. cbn [bind] in E.
      destruct (read_fields _ fs _ _) as [[x s2]| |] eqn:Q; try discriminate. injection E as <- <-.
      eapply sized_cons; [exact (IH _ _ _ _ P1 R)|exact (IHf _ _ _ _ P2 Q)]. }
    destruct (X _ _ _ _ _ P Q) as (u & evs & Eb & W & L). cbn [acc_rest] in *. exists u, (EvStruct (N.of_nat (length x)) :: evs).
    split; [assumption|]. split; [cbn [write]; now rewrite W|exact L].
  - unfold de_option in E. destruct (de_u8 b) as [[x r']| |] eqn:Q; try discriminate. unfold de_u8 in Q. destruct b as [|y b]; [discriminate|].
    injection Q as -> ->. cbn [bind] in E. destruct x; try discriminate.
    + injection E as <- <-. exists [x00], [EvNone]. repeat split.
    + destruct (read D k t r') as [[y r2]| |] eqn:R; try discriminate. injection E as <- <-. destruct (IH t _ _ _ P R) as (u & evs & -> & W & L).
      exists (x01 :: u), (EvSome :: evs). split; [reflexivity|]. split; [cbn [write]; now rewrite W|]. cbn [bincode_write flat_map write_ev app length].
      now f_equal.
  - unfold de_vec in E. destruct (de_u64 b) as [[n r']| |] eqn:Q; try discriminate. cbn [bind] in E.
    destruct (seq_elements _ _ r') as [[y r2]| |] eqn:R; try discriminate. injection E as <- <-.
    assert (X : forall n b l r, seq_elements (read D k t) n b = Ok (l, r) -> sized_list (write k) l b r).
    { clear - IH P. induction n as [|n IHn]; intros b l r E; cbn [seq_elements] in E; [injection E as <- <-; apply sized_nil|].
      destruct (read D k t b) as [[v r']| |] eqn:R; try discriminate. cbn [bind] in E.
      destruct (seq_elements _ n r') as [[x s2]| |] eqn:Q; try discriminate. injection E as <- <-.
      eapply sized_cons; [exact (IH t _ _ _ P R)|exact (IHn _ _ _ Q)]. }
    destruct (u64_read _ _ _ Q) as (u1 & -> & L1 & _). destruct (X _ _ _ _ R) as (u & evs & -> & W & L).
    exists (u1 ++ u), (EvSeq (N.of_nat (length y)) :: evs). split; [now rewrite app_assoc|]. split; [cbn [write]; now rewrite W|].
    cbn [bincode_write flat_map write_ev]. rewrite !app_length, L1, be_length. unfold bincode_write in L. lia.
  - destruct (de_u32 b) as [[n r']| |] eqn:Q; try discriminate. cbn [bind] in E. cbn [plain] in P.
    destruct (read_variant _ vs n r') as [[y r2]| |] eqn:R; try discriminate. injection E as <- <-.
    assert (X : forall vs i v r2, all_plain vs = true -> read_variant (read D k) vs i r' = Ok (v, r2) -> sized (write k) v r' r2).
    { clear - IH. induction vs as [|t vs IHv]; intros i v r2 P E; cbn [read_variant] in E; [discriminate|].
      cbn [all_plain] in P. apply andb_true_iff in P as [P1 P2]. destruct (i =? 0)%N; eauto. }
    destruct (u32_read _ _ _ Q) as (u1 & -> & L1 & _). destruct (X _ _ _ _ P R) as (u & evs & -> & W & L).
    exists (u1 ++ u), (EvVariant n :: evs). split; [now rewrite app_assoc|]. split; [cbn [write]; now rewrite W|].
    cbn [bincode_write flat_map write_ev]. rewrite !app_length, L1, be_length. unfold bincode_write in L. lia.
  - destruct (read D k (D i) b) as [[x r']| |] eqn:Q; try discriminate. injection E as <- <-.
    destruct (IH _ _ _ _ (G i) Q) as (u & evs & -> & W & L). exists u, evs. auto.
Qed.

(** C140. What [next_payload] does after reading, measuring the value, never takes more stack than reading it took: [next_payload] returns every value that can be read
    and moves behind its bytes. *)
Lemma p_C140_next_payload :
  forall (D : types) (t : rty) (before b : list byte) (v : rval) (after : list byte) (stack : nat),
    (forall i, plain (D i) = true) -> plain t = true ->
    read D stack t b = Ok (v, after) ->
    exists used, b = used ++ after /\
      custom_next (recursive D stack t) (Deserializer (Packet (before ++ b)) (length before)) =
      (Deserializer (Packet (before ++ b)) (length (before ++ used)), Ok v).
Proof.
  intros D t before b v after k G P R. destruct (read_sized D G k t b v after P R) as (u & evs & E & W & L). exists u. split; [exact E|].
  assert (SL : slice_from (before ++ b) (length before) = Some b).
  { unfold slice_from. rewrite app_length. destruct (Nat.leb_spec (length before) (length before + length b)); [|lia].
    rewrite skipn_app, skipn_all, Nat.sub_diag. reflexivity. }
  unfold custom_next. cbn [pntr index packet_bytes]. rewrite SL. cbn [or_panic bind]. unfold recursive. cbn [parse calls]. rewrite R. cbn [bind]. rewrite W.
  cbn [bincode_serialized_size bind]. now rewrite bincode_size_write, L, app_length.
Qed.

(** ** Concrete cases *)
Definition vl (l : list byte) : rval := VBase TVarLen16 {| vl16 := l |}.
(** a comment with two replies, one of which has been replied to *)
Definition ex_comment : rval :=
  VStruct [vl [x61]; VVec [VBox (VStruct [vl []; VVec []]); VBox (VStruct [vl [x62]; VVec [VBox (VStruct [vl [x63]; VVec []])]])]].
Example ex_C140_comment :
  exists b, encodes comment (comment 0) ex_comment b /\ depth ex_comment = 8 /\
    read comment 8 (comment 0) (b ++ [xff]) = Ok (ex_comment, [xff]) /\ read comment 7 (comment 0) b = Panic stack_overflow.
Proof.
  assert (VL : forall l, length l < 10 -> encodes comment (RBase TVarLen16) (vl l) (layout TVarLen16 {| vl16 := l |})).
  { intros l L. apply enc_base; [reflexivity| | |reflexivity]; cbn -[N.pow]; unfold vec_in_range, len; [|lia].
    change (2 ^ 64)%N with 18446744073709551616%N. lia. }
  assert (CO : forall l e b, length l < 10 -> length e < 10 -> encodes_elements comment (RBox 0) e b ->
     encodes comment (comment 0) (VStruct [vl l; VVec e]) (layout TVarLen16 {| vl16 := l |} ++ (u64_bytes (N.of_nat (length e)) ++ b) ++ [])).
  { intros l e b L1 L2 H. apply enc_struct. apply encf_cons; [now apply VL|]. apply encf_cons; [|apply encf_nil]. apply enc_vec; [exact H|change (2 ^ 64)%N with 18446744073709551616%N; lia]. }
  eexists. split; [|split; [reflexivity|split]].
  - apply CO; [cbn; lia|cbn; lia|]. eapply ence_cons; [apply enc_box, CO; [cbn; lia|cbn; lia|apply ence_nil]|].
    eapply ence_cons; [|apply ence_nil]. apply enc_box, CO; [cbn; lia|cbn; lia|].
    eapply ence_cons; [|apply ence_nil]. apply enc_box, CO; [cbn; lia|cbn; lia|apply ence_nil].
  - reflexivity.
  - reflexivity.
Qed.
(** their types meet the condition of the linear bound *)
Example ex_C140_linear :
  (forall i, guarded (chain i) = true /\ plain (chain i) = true /\ height (chain i) <= 3) /\
  (forall i, guarded (comment i) = true /\ plain (comment i) = true /\ height (comment i) <= 3) /\
  guarded (endless 0) = false.
Proof. repeat split; cbn; lia. Qed.
(** 2048 bytes, the default size of the receive buffer, are more than a stack of 6144 calls can take. *)
Example ex_C140_default :
  exists packet, length packet = 2048 /\
    custom_next (recursive chain (3 * 2048) (RBox 0)) (start_deserialize (Packet packet)) = (start_deserialize (Packet packet), Panic stack_overflow).
Proof.
  exists (repeat x01 2048). split; [apply repeat_length|]. pose proof (p_C140_chain [] [] 2048 (3 * 2048) (le_n _)) as H.
  cbn [app length] in H. rewrite app_nil_r in H. exact H.
Qed.
(** a type that does not contain itself, with a stack of its height *)
Example ex_C140_closed :
  let t := RStruct (RCons (RBase TU16) (RCons (ROption (RVec (RBase TString))) RNil)) in
  closed t = true /\ plain t = true /\ height t = 4 /\ flatten t = TStruct (FCons TU16 (FCons (TOption (TVec TString)) FNil)).
Proof. repeat split. Qed.
