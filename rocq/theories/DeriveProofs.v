(** * DeriveProofs: proofs of C126 and C127 *)
From Coq Require Import Strings.String.
From Verif Require Import Base Serde Codec Universe Spec SerdeFacts CodecFacts UniverseFacts Packet PacketFacts HeaderProofs Custom CustomSpec CustomProofs Derive DeriveSpec.
Open Scope nat_scope.

(** ** Reading one after the other *)
Fixpoint plain (l : list part) : list byte -> dres (values l) :=
  match l with
  | [] => fun b => Ok (tt, b)
  | p :: l => fun b => let* (x, b) := parse (part_impl p) b in let* (xs, b) := plain l b in Ok ((x, xs), b)
  end.
Lemma fields_parse_plain : forall l i n b, (N.of_nat (length l) <= n)%N ->
  fields_parse l i (Access n b) = let* (v, r) := plain l b in Ok (v, Access (n - N.of_nat (length l)) r).
Proof.
  induction l as [|p l IH]; intros i n b H; cbn [fields_parse plain].
  - cbn [bind length]. now rewrite N.sub_0_r.
  - cbn [length] in *. rewrite next_required_ok by lia. destruct (parse (part_impl p) b) as [[x r]| |]; cbn [bind]; try reflexivity.
    rewrite IH by lia. destruct (plain l r) as [[xs r']| |]; cbn [bind]; try reflexivity.
    do 3 f_equal. lia.
Qed.
Lemma struct_parse l b : parse (struct_of l) b = plain l b.
Proof.
  cbn [parse struct_of]. unfold deserialize_tuple. rewrite fields_parse_plain by lia.
  destruct (plain l b) as [[v r]| |]; reflexivity.
Qed.

(** ** Structs *)
Lemma struct_measured l : Forall (fun p => measured (part_impl p)) l -> measured (struct_of l).
Proof.
  intros H b x after E. rewrite struct_parse in E.
  enough (exists used bytes cs, b = used ++ after /\ fields_calls l x = Ok cs /\ bincode_write cs = bytes /\ length bytes = length used) as (used & bytes & cs & E1 & E2 & E3 & E4).
  { exists used, bytes. split; [exact E1|]. split; [|exact E4]. unfold serializes. cbn [calls struct_of]. rewrite E2. cbn [bind]. eexists. split; [reflexivity|exact E3]. }
  revert b x after E. induction H as [|p l Hp Hl IH]; intros b x after E; cbn [plain fields_calls] in *.
  - injection E as <- <-. now exists [], [], [].
  - destruct (parse (part_impl p) b) as [[y r]| |] eqn:P; cbn [bind] in E; try discriminate.
    destruct (plain l r) as [[ys r']| |] eqn:Q; cbn [bind] in E; try discriminate. injection E as <- <-.
    destruct (Hp _ _ _ P) as (u1 & b1 & -> & (c1 & C1 & W1) & L1). destruct (IH _ _ _ Q) as (u2 & b2 & c2 & -> & C2 & W2 & L2).
    cbn [fst snd]. rewrite C1, C2. cbn [bind]. exists (u1 ++ u2), (b1 ++ b2), (c1 ++ c2).
    rewrite app_assoc, bincode_write_app, W1, W2, !app_length, L1, L2. auto.
Qed.
Lemma struct_never_panics l : Forall (fun p => never_panics (part_impl p)) l -> never_panics (struct_of l).
Proof.
  intros H b site. rewrite struct_parse. revert b. induction H as [|p l Hp Hl IH]; intros b; cbn [plain]; [discriminate|].
  pose proof (Hp b) as Hp'. destruct (parse (part_impl p) b) as [[y r]|e|q]; cbn [bind]; [|discriminate|intros [= ->]; now apply (Hp' site)].
  pose proof (IH r). destruct (plain l r) as [[ys r']| |]; cbn [bind]; congruence.
Qed.
Lemma struct_fits l x : all_fit l x -> fits (struct_of l) x.
Proof.
  intros H. enough (exists cs, fields_calls l x = Ok cs /\ forall rest, plain l (bincode_write cs ++ rest) = Ok (x, rest)) as (cs & C & P).
  { exists (bincode_write cs). split.
    - unfold serializes. cbn [calls struct_of]. rewrite C. cbn [bind]. eexists. split; reflexivity.
    - intros rest. now rewrite struct_parse. }
  revert x H. induction l as [|p l IH]; intros x H; cbn [all_fit fields_calls plain] in *.
  - exists []. split; [reflexivity|]. intros rest. now destruct x.
  - destruct x as [x xs], H as [(b1 & (c1 & C1 & W1) & P1) H]. destruct (IH xs H) as (c2 & C2 & P2). cbn [fst snd] in *.
    rewrite C1, C2. cbn [bind]. exists (c1 ++ c2). split; [reflexivity|]. intros rest.
    rewrite bincode_write_app, W1, <- app_assoc, P1. cbn [bind]. now rewrite P2.
Qed.
Lemma struct_consistent l : Forall (fun p => consistent (part_impl p)) l -> consistent (struct_of l).
Proof.
  intros H b x after E. rewrite struct_parse in E. apply struct_fits. revert b x after E.
  induction H as [|p l Hp Hl IH]; intros b x after E; cbn [plain all_fit] in *; [exact I|].
  destruct (parse (part_impl p) b) as [[y r]| |] eqn:P; cbn [bind] in E; try discriminate.
  destruct (plain l r) as [[ys r']| |] eqn:Q; cbn [bind] in E; try discriminate. injection E as <- <-.
  cbn [fst snd]. split; [exact (Hp _ _ _ P)|exact (IH _ _ _ Q)].
Qed.

(** ** Enums *)
Lemma de_u32_write i rest : (i < 2 ^ 32)%N -> de_u32 (bincode_write [EvVariant i] ++ rest) = Ok (i, rest).
Proof.
  intros H. replace (bincode_write [EvVariant i]) with (layout TU32 i) by (cbn [bincode_write flat_map write_ev layout]; now rewrite app_nil_r, be4).
  exact (f_round TU32 (facts_of TU32) i rest H I eq_refl).
Qed.
Lemma variant_bytes i cs : bincode_write (EvVariant i :: cs) = bincode_write [EvVariant i] ++ bincode_write cs.
Proof. apply (bincode_write_app [EvVariant i] cs). Qed.
Lemma u32_read b i r : de_u32 b = Ok (i, r) -> exists used, b = used ++ r /\ length used = 4 /\ (i < 2 ^ 32)%N.
Proof.
  intros E. destruct (f_ok TU32 (facts_of TU32) _ _ _ E) as (c & -> & R & _ & _ & _ & L & _). exists c. split; [reflexivity|]. split; [|exact R].
  rewrite <- (L eq_refl). reflexivity.
Qed.
Lemma variant_parse_found : forall l k (x : choice l) i b after, variant_parse l i b = Ok (x, after) ->
  Forall (fun p => measured (part_impl p)) l ->
  exists used cs j, b = used ++ after /\ variant_calls l k x = Ok (EvVariant j :: cs) /\ length (bincode_write cs) = length used.
Proof.
  induction l as [|p l IH]; intros k x i b after E H; cbn [variant_parse choice] in *; [discriminate|]. inversion_clear H as [|? ? Hp Hl].
  destruct (i =? 0)%N.
  - destruct (parse (part_impl p) b) as [[y r]| |] eqn:P; cbn [bind] in E; try discriminate. injection E as <- <-.
    destruct (Hp _ _ _ P) as (u & bytes & -> & (cs & C & <-) & L). cbn [variant_calls]. rewrite C. cbn [bind]. now exists u, cs, k.
  - destruct (variant_parse l (N.pred i) b) as [[y r]| |] eqn:P; cbn [bind] in E; try discriminate. injection E as <- <-.
    exact (IH (N.succ k) y _ _ _ P Hl).
Qed.
Lemma enum_measured l : Forall (fun p => measured (part_impl p)) l -> measured (enum_of l).
Proof.
  intros H b x after E. cbn [parse enum_of] in E. destruct (de_u32 b) as [[i r]| |] eqn:D; cbn [bind] in E; try discriminate.
  destruct (u32_read _ _ _ D) as (u & -> & L & _). destruct (variant_parse_found l 0%N x _ _ _ E H) as (u2 & cs & j & -> & C & L2).
  exists (u ++ u2), (bincode_write (EvVariant j :: cs)). split; [now rewrite app_assoc|]. split; [exists (EvVariant j :: cs); now split|].
  rewrite variant_bytes, !app_length, L, L2. reflexivity.
Qed.
Lemma enum_never_panics l : Forall (fun p => never_panics (part_impl p)) l -> never_panics (enum_of l).
Proof.
  intros H b site. cbn [parse enum_of]. pose proof (f_no_panic TU32 (facts_of TU32) b site eq_refl) as N. cbn [de] in N.
  destruct (de_u32 b) as [[i r]|e|q]; cbn [bind]; [|discriminate|intros [= ->]; now apply N]. clear N b. revert i r.
  induction H as [|p l Hp Hl IH]; intros i r; cbn [variant_parse]; [discriminate|]. destruct (i =? 0)%N.
  - pose proof (Hp r) as Hp'. destruct (parse (part_impl p) r) as [[y r']|e|q]; cbn [bind]; [discriminate..|intros [= ->]; now apply (Hp' site)].
  - pose proof (IH (N.pred i) r). destruct (variant_parse l (N.pred i) r) as [[ys r']| |]; cbn [bind]; congruence.
Qed.
Lemma variant_fits : forall l k (x : choice l), chosen_fits l x -> (k + N.of_nat (length l) <= 2 ^ 32)%N ->
  exists cs j, variant_calls l k x = Ok (EvVariant (k + j) :: cs) /\ (j < N.of_nat (length l))%N /\
    forall rest, variant_parse l j (bincode_write cs ++ rest) = Ok (x, rest).
Proof.
  induction l as [|p l IH]; intros k x H L; cbn [choice chosen_fits variant_calls variant_parse length] in *; [destruct x|].
  destruct x as [x|y].
  - destruct H as (bytes & (cs & C & W) & P). rewrite C. cbn [bind]. exists cs, 0%N. rewrite N.add_0_r. split; [reflexivity|]. split; [lia|].
    intros rest. cbn [N.eqb]. now rewrite W, P.
  - destruct (IH (N.succ k) y H) as (cs & j & C & J & P); [lia|]. exists cs, (N.succ j). rewrite C. split; [do 3 f_equal; lia|]. split; [lia|].
    intros rest. destruct (N.eqb_spec (N.succ j) 0); [lia|]. rewrite N.pred_succ, P. reflexivity.
Qed.
Lemma enum_fits l x : (N.of_nat (length l) <= 2 ^ 32)%N -> chosen_fits l x -> fits (enum_of l) x.
Proof.
  intros L H. destruct (variant_fits l 0%N x H) as (cs & j & C & J & P); [lia|]. rewrite N.add_0_l in C.
  exists (bincode_write (EvVariant j :: cs)). split; [exists (EvVariant j :: cs); now split|]. intros rest.
  cbn [parse enum_of]. rewrite variant_bytes, <- app_assoc, de_u32_write by lia. cbn [bind]. apply P.
Qed.
Lemma enum_consistent l : (N.of_nat (length l) <= 2 ^ 32)%N -> Forall (fun p => consistent (part_impl p)) l -> consistent (enum_of l).
Proof.
  intros L H b x after E. apply enum_fits; [exact L|]. clear L. cbn [parse enum_of] in E. destruct (de_u32 b) as [[i r]| |]; cbn [bind] in E; try discriminate.
  revert i r x after E. induction H as [|p l Hp Hl IH]; intros i r x after E; cbn [variant_parse choice chosen_fits] in *; [discriminate|].
  destruct (i =? 0)%N.
  - destruct (parse (part_impl p) r) as [[y r']| |] eqn:P; cbn [bind] in E; try discriminate. injection E as <- <-. exact (Hp _ _ _ P).
  - destruct (variant_parse l (N.pred i) r) as [[y r']| |] eqn:P; cbn [bind] in E; try discriminate. injection E as <- <-. exact (IH _ _ _ _ P).
Qed.

(** ** Options *)
Lemma option_read {A} (I : impl A) b x after : parse (option_of I) b = Ok (x, after) ->
  (x = None /\ b = x00 :: after) \/ (exists y r, x = Some y /\ b = x01 :: r /\ parse I r = Ok (y, after)).
Proof.
  cbn [parse option_of]. unfold de_option. destruct b as [|t r]; [discriminate|]. cbn [de_u8 bind]. destruct t; try discriminate.
  - intros [= <- <-]. now left.
  - destruct (parse I r) as [[y r']| |] eqn:P; cbn [bind]; try discriminate. intros [= <- <-]. right. now exists y, r.
Qed.
Lemma option_measured {A} (I : impl A) : measured I -> measured (option_of I).
Proof.
  intros H b x after E. apply option_read in E as [[-> ->]|(y & r & -> & -> & P)].
  - exists [x00], [x00]. split; [reflexivity|]. split; [|reflexivity]. now exists [EvNone].
  - destruct (H _ _ _ P) as (u & bytes & -> & (cs & C & <-) & L). exists (x01 :: u), (x01 :: bincode_write cs). split; [reflexivity|]. split; [|cbn; now f_equal].
    unfold serializes. cbn [calls option_of]. rewrite C. now exists (EvSome :: cs).
Qed.
Lemma option_never_panics {A} (I : impl A) : never_panics I -> never_panics (option_of I).
Proof.
  intros H b site. cbn [parse option_of]. unfold de_option. destruct b as [|t r]; [discriminate|]. cbn [de_u8 bind]. destruct t; try discriminate.
  pose proof (H r) as H'. destruct (parse I r) as [[y r']| |]; cbn [bind]; [discriminate..|]. intros [= ->]. now apply (H' site).
Qed.
Lemma option_fits {A} (I : impl A) x : (forall y, x = Some y -> fits I y) -> fits (option_of I) x.
Proof.
  intros H. destruct x as [y|].
  - destruct (H y eq_refl) as (bytes & (cs & C & <-) & P). exists (x01 :: bincode_write cs). split.
    + unfold serializes. cbn [calls option_of]. rewrite C. now exists (EvSome :: cs).
    + intros rest. cbn [parse option_of app]. unfold de_option. cbn [de_u8 bind]. now rewrite P.
  - exists [x00]. split; [now exists [EvNone]|]. reflexivity.
Qed.
Lemma option_consistent {A} (I : impl A) : consistent I -> consistent (option_of I).
Proof.
  intros H b x after E. apply option_fits. apply option_read in E as [[-> ->]|(y & r & -> & -> & P)]; [discriminate|]. intros z [= <-]. exact (H _ _ _ P).
Qed.

(** ** Sequences *)
Lemma elements_measured {A} (I : impl A) : measured I -> forall n b x after, seq_elements (parse I) n b = Ok (x, after) ->
  exists used cs, b = used ++ after /\ ser_seq (map (calls I) x) = Ok cs /\ length (bincode_write cs) = length used /\ length x = n.
Proof.
  intros H. induction n as [|n IH]; intros b x after E; cbn [seq_elements] in E.
  - injection E as <- <-. now exists [], [].
  - destruct (parse I b) as [[y r]| |] eqn:P; cbn [bind] in E; try discriminate.
    destruct (seq_elements (parse I) n r) as [[ys r']| |] eqn:Q; cbn [bind] in E; try discriminate. injection E as <- <-.
    destruct (H _ _ _ P) as (u & bytes & -> & (cs & C & <-) & L). destruct (IH _ _ _ Q) as (u2 & cs2 & -> & C2 & L2 & N).
    exists (u ++ u2), (cs ++ cs2). cbn [map ser_seq]. rewrite C, C2, bincode_write_app, !app_length, app_assoc. cbn [bind length]. repeat split; lia.
Qed.
Lemma elements_fit {A} (I : impl A) x : Forall (fits I) x ->
  exists cs, ser_seq (map (calls I) x) = Ok cs /\ forall rest, seq_elements (parse I) (length x) (bincode_write cs ++ rest) = Ok (x, rest).
Proof.
  induction 1 as [|y ys (bytes & (cs & C & <-) & P) _ (cs2 & C2 & P2)]; cbn [map ser_seq length seq_elements].
  - exists []. now split.
  - rewrite C, C2. cbn [bind]. exists (cs ++ cs2). split; [reflexivity|]. intros rest. rewrite bincode_write_app, <- app_assoc, P. cbn [bind]. now rewrite P2.
Qed.
Lemma elements_consistent {A} (I : impl A) : consistent I -> forall n b x after, seq_elements (parse I) n b = Ok (x, after) -> Forall (fits I) x /\ length x = n.
Proof.
  intros H. induction n as [|n IH]; intros b x after E; cbn [seq_elements] in E.
  - injection E as <- <-. now split.
  - destruct (parse I b) as [[y r]| |] eqn:P; cbn [bind] in E; try discriminate.
    destruct (seq_elements (parse I) n r) as [[ys r']| |] eqn:Q; cbn [bind] in E; try discriminate. injection E as <- <-.
    destruct (IH _ _ _ Q) as [F N]. split; [constructor; [exact (H _ _ _ P)|exact F]|cbn; now f_equal].
Qed.
Lemma elements_never_panic {A} (I : impl A) : never_panics I -> forall n b site, seq_elements (parse I) n b <> Panic site.
Proof.
  intros H. induction n as [|n IH]; intros b site; cbn [seq_elements]; [discriminate|].
  pose proof (H b) as H'. destruct (parse I b) as [[y r]| |]; cbn [bind]; [|discriminate|intros [= ->]; now apply (H' site)].
  pose proof (IH r site). destruct (seq_elements (parse I) n r) as [[ys r']| |]; cbn [bind]; congruence.
Qed.
Lemma u64_read b i r : de_u64 b = Ok (i, r) -> exists used, b = used ++ r /\ length used = 8 /\ (i < 2 ^ 64)%N.
Proof.
  intros E. destruct (f_ok TU64 (facts_of TU64) _ _ _ E) as (c & -> & R & _ & _ & _ & L & _). exists c. split; [reflexivity|]. split; [|exact R].
  rewrite <- (L eq_refl). reflexivity.
Qed.
Lemma seq_bytes n cs : bincode_write (EvSeq n :: cs) = u64_bytes n ++ bincode_write cs.
Proof. unfold bincode_write. cbn [flat_map write_ev]. now rewrite be8. Qed.
Lemma vec_measured {A} (I : impl A) : measured I -> measured (vec_of I).
Proof.
  intros H b x after E. cbn [parse vec_of] in E. unfold de_vec in E. destruct (de_u64 b) as [[n r]| |] eqn:D; cbn [bind] in E; try discriminate.
  destruct (u64_read _ _ _ D) as (u & -> & L & _). destruct (elements_measured I H _ _ _ _ E) as (u2 & cs & -> & C & L2 & _).
  exists (u ++ u2), (bincode_write (EvSeq (N.of_nat (length x)) :: cs)). split; [now rewrite app_assoc|]. split.
  - unfold serializes. cbn [calls vec_of]. rewrite C. cbn [bind]. eexists. now split.
  - rewrite seq_bytes, !app_length, L, L2. reflexivity.
Qed.
Lemma vec_never_panics {A} (I : impl A) : never_panics I -> never_panics (vec_of I).
Proof.
  intros H b site. cbn [parse vec_of]. unfold de_vec. pose proof (f_no_panic TU64 (facts_of TU64) b site eq_refl) as N. cbn [de] in N.
  destruct (de_u64 b) as [[n r]|e|q]; cbn [bind]; [|discriminate|intros [= ->]; now apply N]. now apply elements_never_panic.
Qed.
Lemma vec_fits {A} (I : impl A) x : (N.of_nat (length x) < 2 ^ 64)%N -> Forall (fits I) x -> fits (vec_of I) x.
Proof.
  intros L H. destruct (elements_fit I x H) as (cs & C & P). exists (bincode_write (EvSeq (N.of_nat (length x)) :: cs)). split.
  - unfold serializes. cbn [calls vec_of]. rewrite C. cbn [bind]. eexists. now split.
  - intros rest. rewrite seq_bytes, <- app_assoc. cbn [parse vec_of]. unfold de_vec.
    change (u64_bytes (N.of_nat (length x))) with (layout TU64 (N.of_nat (length x))).
    rewrite (f_round TU64 (facts_of TU64) (N.of_nat (length x)) _ L Logic.I eq_refl : de_u64 _ = _). cbn [bind transmitted]. now rewrite Nat2N.id.
Qed.
Lemma vec_consistent {A} (I : impl A) : consistent I -> consistent (vec_of I).
Proof.
  intros H b x after E. cbn [parse vec_of] in E. unfold de_vec in E. destruct (de_u64 b) as [[n r]| |] eqn:D; cbn [bind] in E; try discriminate.
  destruct (u64_read _ _ _ D) as (u & -> & L & LT). destruct (elements_consistent I H _ _ _ _ E) as [F N]. apply vec_fits; [lia|exact F].
Qed.
Lemma array_measured {A} n (I : impl A) : measured I -> measured (array_of n I).
Proof.
  intros H b x after E. destruct (elements_measured I H _ _ _ _ E) as (u & cs & -> & C & L & _). exists u, (bincode_write cs). split; [reflexivity|]. split; [|exact L].
  unfold serializes. cbn [calls array_of]. rewrite C. cbn [bind]. eexists. split; reflexivity.
Qed.
Lemma array_fits {A} n (I : impl A) x : length x = n -> Forall (fits I) x -> fits (array_of n I) x.
Proof.
  intros <- H. destruct (elements_fit I x H) as (cs & C & P). exists (bincode_write cs). split; [|exact P].
  unfold serializes. cbn [calls array_of]. rewrite C. cbn [bind]. eexists. split; reflexivity.
Qed.
Lemma array_consistent {A} n (I : impl A) : consistent I -> consistent (array_of n I).
Proof. intros H b x after E. destruct (elements_consistent I H _ _ _ _ E) as [F N]. now apply array_fits. Qed.

(** ** Headers, packets, signatures *)
Lemma header_written h :
  bincode_serialize (calls header_impl h) =
  match h_mid_hash h, h_message_type h with
  | Some mid, Some t => Ok (header_layout mid (byte_of_N t))
  | None, _ => Err (ECustom "mid_hash was empty and this wasn't expected")
  | Some _, None => Err (ECustom "Message type was empty and this wasn't expected")
  end.
Proof.
  destruct h as [size [] [mid|] [t|]]; cbn [calls header_impl h_mid_hash h_message_type]; try reflexivity.
  unfold ser_header. cbn [h_version h_mid_hash h_message_type ok_or bind bincode_serialize app]. f_equal. cbn [bincode_write flat_map write_ev app].
  fold (bincode_write (map EvU8 mid ++ [EvU8 (byte_of_N t)])). rewrite bincode_write_app, bincode_write_u8s. reflexivity.
Qed.
Lemma header_parse b : 
  (header_prefix_ok b = true /\ exists mid t, de_header b = Ok (spec_header mid t, skipn 23 b) /\ length mid = 20 /\ firstn 23 b = header_layout mid t) \/
  (header_prefix_ok b = false /\ exists e, de_header b = Err e).
Proof.
  destruct (header_prefix_ok b) eqn:E; [left|right; split; [reflexivity|now apply de_header_err]]. split; [reflexivity|].
  rewrite (de_header_ok b E). exists (firstn 20 (skipn 2 b)), (byte_at b 22).
  unfold header_prefix_ok in E. rewrite !andb_true_iff, Nat.leb_le, !byte_eqb_eq in E. destruct E as [[L H0] H1].
  split; [reflexivity|]. split; [rewrite firstn_length, skipn_length; lia|].
  do 23 (destruct b as [|? b]; [cbn in L; lia|]). cbn in H0, H1 |- *. unfold byte_at in *. cbn in H0, H1. subst. reflexivity.
Qed.
Lemma spec_header_serializes mid t : serializes header_impl (spec_header mid t) (header_layout mid t).
Proof.
  pose proof (header_written (spec_header mid t)) as W. cbn [h_mid_hash h_message_type spec_header] in W. rewrite byte_of_N_of_byte in W.
  unfold bincode_serialize in W. destruct (calls header_impl (spec_header mid t)) as [cs| |] eqn:C; cbn [bind] in W; try discriminate.
  injection W as W. now exists cs.
Qed.
Lemma header_measured : measured header_impl.
Proof.
  intros b x after E. cbn [parse header_impl] in E. destruct (header_parse b) as [(P & mid & t & D & L & F)|(_ & e & D)]; rewrite D in E; [|discriminate].
  injection E as <- <-. exists (firstn 23 b), (header_layout mid t). split; [symmetry; apply firstn_skipn|]. split; [apply spec_header_serializes|now rewrite F].
Qed.
Lemma header_never_panics : never_panics header_impl.
Proof. intros b site. cbn [parse header_impl]. destruct (header_parse b) as [(P & mid & t & -> & L & F)|(_ & e & ->)]; discriminate. Qed.
Lemma header_layout_parse mid t rest : length mid = 20 -> de_header (header_layout mid t ++ rest) = Ok (spec_header mid t, rest).
Proof.
  intros L. destruct (header_layout_fields mid t rest L) as [F1 F2].
  rewrite de_header_ok, F1, F2.
  - do 2 f_equal. replace 23 with (length (header_layout mid t)) by (unfold header_layout; rewrite !app_length, L; reflexivity). apply skipn_app_exact. reflexivity.
  - unfold header_prefix_ok. rewrite app_length. unfold header_layout. rewrite !app_length, L. reflexivity.
Qed.
Lemma header_fits_iff h :
  fits header_impl h <->
  exists mid t, h_mid_hash h = Some mid /\ length mid = 20 /\ h_message_type h = Some t /\ (t < 256)%N /\ h_size h = 23.
Proof.
  split.
  - intros (bytes & (cs & C & W) & P). specialize (P []). rewrite app_nil_r in P. cbn [parse header_impl] in P.
    destruct (header_parse bytes) as [(_ & mid & t & D & L & _)|(_ & e & D)]; rewrite D in P; [|discriminate].
    injection P as <- _. exists mid, (N_of_byte t). split; [reflexivity|]. split; [exact L|]. split; [reflexivity|]. split; [apply N_of_byte_lt|reflexivity].
  - destruct h as [size [] m ty']. cbn [h_mid_hash h_message_type h_size]. intros (mid & t & -> & L & -> & T & ->).
    assert (spec_header mid (byte_of_N t) = {| h_size := 23; h_version := PyIPV8Header; h_mid_hash := Some mid; h_message_type := Some t |}) as <-.
    { unfold spec_header. now rewrite N_of_byte_of_N, N.mod_small. }
    exists (header_layout mid (byte_of_N t)). split; [apply spec_header_serializes|]. intros rest. now apply header_layout_parse.
Qed.
Lemma header_consistent : consistent header_impl.
Proof.
  intros b x after E. cbn [parse header_impl] in E. destruct (header_parse b) as [(P & mid & t & D & L & F)|(_ & e & D)]; rewrite D in E; [|discriminate].
  injection E as <- <-. exists (header_layout mid t). split; [apply spec_header_serializes|]. intros rest. now apply header_layout_parse.
Qed.

Lemma packet_serializes p : serializes packet_impl p (u64_bytes (N.of_nat (length (packet_bytes p))) ++ packet_bytes p).
Proof.
  exists (EvSeq (N.of_nat (length (packet_bytes p))) :: map EvU8 (packet_bytes p)). split; [reflexivity|]. now rewrite seq_bytes, bincode_write_u8s.
Qed.
Lemma packet_fits p : (N.of_nat (length (packet_bytes p)) < 2 ^ 64)%N -> fits packet_impl p.
Proof.
  intros H. eexists. split; [apply packet_serializes|]. intros rest. cbn [parse packet_impl].
  change (u64_bytes (N.of_nat (length (packet_bytes p))) ++ packet_bytes p) with (layout TVecU8 (packet_bytes p)).
  rewrite (f_round TVecU8 (facts_of TVecU8) (packet_bytes p) rest H I eq_refl : de_vec_u8 _ = _). cbn [bind transmitted]. now destruct p.
Qed.
Lemma packet_read b x after : parse packet_impl b = Ok (x, after) -> b = (u64_bytes (N.of_nat (length (packet_bytes x))) ++ packet_bytes x) ++ after /\ (N.of_nat (length (packet_bytes x)) < 2 ^ 64)%N.
Proof.
  cbn [parse packet_impl]. destruct (de_vec_u8 b) as [[v r]| |] eqn:D; cbn [bind]; try discriminate. intros [= <- <-].
  destruct (f_ok TVecU8 (facts_of TVecU8) _ _ _ D) as (c & -> & R & EN & _ & _ & _ & X & _). cbn [packet_bytes]. split; [|exact R]. f_equal. symmetry. now apply X.
Qed.
Lemma packet_measured : measured packet_impl.
Proof. intros b x after E. apply packet_read in E as [-> _]. do 2 eexists. split; [reflexivity|]. split; [apply packet_serializes|reflexivity]. Qed.
Lemma packet_consistent : consistent packet_impl.
Proof. intros b x after E. apply packet_read in E as [_ L]. now apply packet_fits. Qed.
Lemma packet_never_panics : never_panics packet_impl.
Proof.
  intros b site. cbn [parse packet_impl]. pose proof (f_no_panic TVecU8 (facts_of TVecU8) b site eq_refl) as N. cbn [de] in N.
  destruct (de_vec_u8 b) as [[v r]|e|q]; cbn [bind]; [discriminate..|]. intros [= ->]. now apply N.
Qed.

(** ** C126 *)
(** C126. Reading a [Header] as a payload is taking the header of a packet, wherever the cursor is: same result, same position afterwards. *)
Lemma p_C126_header_as_a_payload :
  forall d : deserializer, custom_next header_impl d = pop_header d.
Proof.
  intros d. unfold custom_next, pop_header, peek_header. destruct (or_panic (slice_from (packet_bytes (pntr d)) (index d))) as [b| |]; cbn [bind]; try reflexivity.
  cbn [parse header_impl]. destruct (header_parse b) as [(P & mid & t & D & L & F)|(_ & e & D)]; rewrite D; cbn [bind]; [|reflexivity].
  destruct (spec_header_serializes mid t) as (cs & C & W). rewrite C. cbn [bincode_serialized_size bind].
  rewrite bincode_size_write, W. replace (length (header_layout mid t)) with 23 by (unfold header_layout; rewrite !app_length, L; reflexivity). reflexivity.
Qed.
(** C126. What is written for a header: the version, the community id, the low byte of the message type; a missing id or type is refused, with these words. *)
Lemma p_C126_header_bytes :
  forall h : header,
  bincode_serialize (calls header_impl h) =
  match h_mid_hash h, h_message_type h with
  | Some mid, Some t => Ok (header_layout mid (byte_of_N t))
  | None, _ => Err (ECustom "mid_hash was empty and this wasn't expected")
  | Some _, None => Err (ECustom "Message type was empty and this wasn't expected")
  end.
Proof. exact header_written. Qed.
(** C126. A header that is part of a payload is read back from its bytes exactly if it has an id of 20 bytes, a message type below 256 and says it has 23 bytes; every header that was read is like that, and no bytes make reading one panic. *)
Lemma p_C126_header_fits :
  (forall h, fits header_impl h <->
     exists mid t, h_mid_hash h = Some mid /\ length mid = 20 /\ h_message_type h = Some t /\ (t < 256)%N /\ h_size h = 23) /\
  consistent header_impl /\ measured header_impl /\ never_panics header_impl.
Proof. split; [exact header_fits_iff|]. split; [exact header_consistent|]. split; [exact header_measured|exact header_never_panics]. Qed.
(** C126. A [Packet] (not a [NestedPacket]) that is part of a payload is written as its length in 8 bytes and its bytes, whatever its size, and read back. *)
Lemma p_C126_packet :
  forall p : packet, (N.of_nat (length (packet_bytes p)) < 2 ^ 64)%N ->
  serializes packet_impl p (u64_bytes (N.of_nat (length (packet_bytes p))) ++ packet_bytes p) /\ fits packet_impl p /\
  consistent packet_impl /\ measured packet_impl /\ never_panics packet_impl.
Proof.
  intros p H. split; [apply packet_serializes|]. split; [now apply packet_fits|]. split; [exact packet_consistent|]. split; [exact packet_measured|exact packet_never_panics].
Qed.
(** C126. [Packet::sign] is: make a signature of the packet, add it as a payload. Adding a signature appends its 64 bytes and never fails. *)
Lemma p_C126_signature :
  forall (C : ed25519) (p : packet) (k : keypair C),
  (forall s : signature, add_signature p s = (Packet (packet_bytes p ++ sig_bytes s), Ok tt)) /\
  packet_sign (C := C) p k = match sign_packet (C := C) k p with Ok s => Ok (fst (add_signature p s)) | Err e => Err e | Panic q => Panic q end.
Proof.
  intros C p k.
  assert (forall s, add_signature p s = (Packet (packet_bytes p ++ sig_bytes s), Ok tt)) as A.
  { intros s. unfold add_signature, packet_extend, ser_signature. cbn [bincode_serialize bind]. do 3 f_equal. apply bincode_write_u8s. }
  split; [exact A|]. unfold packet_sign. destruct (sign_packet k p) as [s| |]; cbn [bind]; try reflexivity.
Qed.

(** ** C127 *)
(** C127. A struct derived from parts: if every part is written again in as many bytes as were read, so is the struct; if no part panics, it does not; if everything read from the parts is read again from what is written for it, the same holds of the struct. A value is read back if its fields are. *)
Lemma p_C127_structs :
  forall l : list part,
  (Forall (fun p => measured (part_impl p)) l -> measured (struct_of l)) /\
  (Forall (fun p => never_panics (part_impl p)) l -> never_panics (struct_of l)) /\
  (Forall (fun p => consistent (part_impl p)) l -> consistent (struct_of l)) /\
  (forall x, all_fit l x -> fits (struct_of l) x).
Proof.
  intros l. split; [apply struct_measured|]. split; [apply struct_never_panics|]. split; [apply struct_consistent|apply struct_fits].
Qed.
(** C127. The same of enums, ... *)
Lemma p_C127_enums :
  forall l : list part, (N.of_nat (length l) <= 2 ^ 32)%N ->
  (Forall (fun p => measured (part_impl p)) l -> measured (enum_of l)) /\
  (Forall (fun p => never_panics (part_impl p)) l -> never_panics (enum_of l)) /\
  (Forall (fun p => consistent (part_impl p)) l -> consistent (enum_of l)) /\
  (forall x, chosen_fits l x -> fits (enum_of l) x).
Proof.
  intros l L. split; [apply enum_measured|]. split; [apply enum_never_panics|]. split; [now apply enum_consistent|]. intros x. now apply enum_fits.
Qed.
(** C127. ... of options, vectors and arrays. *)
Lemma p_C127_options_vectors_arrays :
  forall (A : Type) (I : impl A) (n : nat),
  (measured I -> measured (option_of I) /\ measured (vec_of I) /\ measured (array_of n I)) /\
  (never_panics I -> never_panics (option_of I) /\ never_panics (vec_of I) /\ never_panics (array_of n I)) /\
  (consistent I -> consistent (option_of I) /\ consistent (vec_of I) /\ consistent (array_of n I)) /\
  (forall x, fits (option_of I) None /\ (fits I x -> fits (option_of I) (Some x))) /\
  (forall l, Forall (fits I) l -> ((N.of_nat (length l) < 2 ^ 64)%N -> fits (vec_of I) l) /\ (length l = n -> fits (array_of n I) l)).
Proof.
  intros A I n. split; [|split; [|split; [|split]]].
  - intros H. split; [now apply option_measured|]. split; [now apply vec_measured|now apply array_measured].
  - intros H. split; [now apply option_never_panics|]. split; [now apply vec_never_panics|]. intros b site. now apply elements_never_panic.
  - intros H. split; [now apply option_consistent|]. split; [now apply vec_consistent|now apply array_consistent].
  - intros x. split; [now apply option_fits|]. intros H. apply option_fits. now intros y [= <-].
  - intros l H. split; intros L; [now apply vec_fits|now apply array_fits].
Qed.
(** C127. The types of Universe.v are such parts: all but those with an authentication payload are measured and never panic; those that delimit themselves are consistent, too. *)
Lemma p_C127_library_types :
  forall t : ty,
  (has_auth t = false -> measured (derived t) /\ never_panics (derived t)) /\
  (self_delimiting t = true -> consistent (derived t)).
Proof.
  intros t. split.
  - intros A. split.
    + intros b x after E. destruct (f_ok t (facts_of t) _ _ _ E) as (c & -> & R & EN & _ & _ & L & _).
      destruct (f_ser t (facts_of t) x R) as [[_ (evs & SE & W)]|[NE _]]; [|contradiction].
      exists c, (layout t x). split; [reflexivity|]. split; [now exists evs|now apply L].
    + intros b site. now apply (f_no_panic t (facts_of t)).
  - intros S b x after E. destruct (f_ok t (facts_of t) _ _ _ E) as (c & -> & R & EN & T & _). now apply p_C97_derived_types_fit.
Qed.

(** the derive of Universe.v *)
Fixpoint parts_of (fs : tys) : list part :=
  match fs with
  | FNil => []
  | FCons t r => Part (derived t) :: parts_of r
  end.
Fixpoint fields_of (fs : tys) : tvals fs -> values (parts_of fs) :=
  match fs with
  | FNil => fun v => v
  | FCons t r => fun v => (fst v, fields_of r (snd v))
  end.
Fixpoint fields_from (fs : tys) : values (parts_of fs) -> tvals fs :=
  match fs with
  | FNil => fun v => v
  | FCons t r => fun v => (fst v, fields_from r (snd v))
  end.
Fixpoint variant_of (fs : tys) : talts fs -> choice (parts_of fs) :=
  match fs with
  | FNil => fun v => v
  | FCons t r => fun v => match v with inl x => inl x | inr y => inr (variant_of r y) end
  end.
Lemma fields_inverse fs : (forall v, fields_from fs (fields_of fs v) = v) /\ (forall v, fields_of fs (fields_from fs v) = v).
Proof.
  induction fs as [|t r [IH1 IH2]]; split; try reflexivity; intros [x xs]; cbn [fields_of fields_from fst snd]; [now rewrite IH1|now rewrite IH2].
Qed.
Lemma parts_length fs : length (parts_of fs) = nfields fs.
Proof. induction fs as [|t r IH]; cbn; [reflexivity|now f_equal]. Qed.
Lemma same_fields fs v : fields_calls (parts_of fs) (fields_of fs v) = sers fs v.
Proof. induction fs as [|t r IH]; [reflexivity|]. cbn [parts_of fields_calls fields_of sers part_impl fst snd]. now rewrite IH. Qed.
Lemma same_plain fs b : plain (parts_of fs) b = let* (v, r) := des_plain fs b in Ok (fields_of fs v, r).
Proof.
  revert b. induction fs as [|t r IH]; intros b; [reflexivity|]. cbn [parts_of plain part_impl des_plain fields_of].
  cbn [parse derived]. destruct (de t b) as [[x b']| |]; cbn [bind]; try reflexivity. rewrite IH.
  destruct (des_plain r b') as [[xs b'']| |]; reflexivity.
Qed.
Lemma same_variants fs : forall k v, variant_calls (parts_of fs) k (variant_of fs v) = seralts fs k v.
Proof.
  induction fs as [|t r IH]; intros k v; [destruct v|]. destruct v as [x|y]; [reflexivity|]. apply IH.
Qed.
Lemma same_variant_parse fs : forall i b, variant_parse (parts_of fs) i b = let* (v, r) := dealts fs i b in Ok (variant_of fs v, r).
Proof.
  induction fs as [|t r IH]; intros i b; [reflexivity|]. cbn [parts_of variant_parse dealts part_impl]. destruct (i =? 0)%N.
  - cbn [parse derived]. destruct (de t b) as [[x b']| |]; reflexivity.
  - rewrite IH. destruct (dealts r (N.pred i) b) as [[y b']| |]; reflexivity.
Qed.
(** C127. Where all parts are types of Universe.v, these derived impls are the ones there. *)
Lemma p_C127_the_same_derive :
  (forall (fs : tys), (forall v, calls (struct_of (parts_of fs)) (fields_of fs v) = ser (TStruct fs) v) /\
     (forall b, parse (struct_of (parts_of fs)) b = let* (v, r) := de (TStruct fs) b in Ok (fields_of fs v, r)) /\
     (forall v, fields_from fs (fields_of fs v) = v) /\ (forall v, fields_of fs (fields_from fs v) = v)) /\
  (forall (vs : tys), (forall v, calls (enum_of (parts_of vs)) (variant_of vs v) = ser (TEnum vs) v) /\
     (forall b, parse (enum_of (parts_of vs)) b = let* (v, r) := de (TEnum vs) b in Ok (variant_of vs v, r))) /\
  (forall t, (forall v, calls (option_of (derived t)) v = ser (TOption t) v) /\ (forall b, parse (option_of (derived t)) b = de (TOption t) b) /\
     (forall v, calls (vec_of (derived t)) v = ser (TVec t) v) /\ (forall b, parse (vec_of (derived t)) b = de (TVec t) b)).
Proof.
  split; [|split].
  - intros fs. split; [|split; [|apply fields_inverse]].
    + intros v. cbn [calls struct_of ser]. now rewrite same_fields, parts_length.
    + intros b. now rewrite struct_parse, same_plain, de_struct.
  - intros vs. split; [intros v; apply same_variants|]. intros b. cbn [parse enum_of de]. destruct (de_u32 b) as [[i r]| |]; cbn [bind]; try reflexivity. apply same_variant_parse.
  - intros t. repeat split.
Qed.

(** C127. Reading such a payload inside a packet: either the cursor stays and an error is returned, or it stands behind exactly the bytes the value was read from; it never leaves the packet. *)
Lemma p_C127_cursor :
  forall (A : Type) (I : impl A), measured I -> never_panics I ->
  forall (before rest : list byte),
  (exists e, custom_next I (Deserializer (Packet (before ++ rest)) (length before)) = (Deserializer (Packet (before ++ rest)) (length before), Err e)) \/
  (exists used after x, rest = used ++ after /\ parse I rest = Ok (x, after) /\
     custom_next I (Deserializer (Packet (before ++ rest)) (length before)) = (Deserializer (Packet (before ++ rest)) (length (before ++ used)), Ok x)).
Proof.
  intros A I M N before rest. unfold custom_next. cbn [pntr packet_bytes index].
  rewrite slice_from_ok by (rewrite app_length; lia). rewrite skipn_app_exact by reflexivity. cbn [or_panic bind].
  pose proof (N rest) as N'. destruct (parse I rest) as [[x after]|e|q] eqn:P; cbn [bind].
  - right. destruct (M _ _ _ P) as (used & bytes & E & (cs & C & W) & L). exists used, after, x. split; [exact E|]. split; [reflexivity|].
    rewrite C. cbn [bincode_serialized_size bind]. now rewrite bincode_size_write, W, L, app_length.
  - left. now exists e.
  - now destruct (N' q).
Qed.

(** Example: a message that relays a packet: its header, the packet, the hops it took, an optional note *)
Definition relayed : impl (values [Part header_impl; Part packet_impl; Part (vec_of (derived TAddress)); Part (option_of (derived TString))]) := struct_of _.
Example ex_C127_relayed : measured relayed /\ never_panics relayed /\ consistent relayed.
Proof.
  destruct (p_C127_library_types TAddress) as [A1 A2], (p_C127_library_types TString) as [S1 S2].
  destruct (A1 eq_refl), (S1 eq_refl). specialize (A2 eq_refl). specialize (S2 eq_refl).
  destruct p_C126_header_fits as (_ & HD1 & HD2 & HD3).
  split; [|split]; apply p_C127_structs; repeat constructor; cbn [part_impl];
    first [assumption|apply packet_measured|apply packet_consistent|apply packet_never_panics|now apply vec_measured|now apply vec_consistent|now apply vec_never_panics
          |now apply option_measured|now apply option_consistent|now apply option_never_panics].
Qed.
Example ex_C127_bytes :
  serializes relayed (spec_header (repeat x2a 20) x07, (Packet [x01; x02], ([V4 x7f x00 x00 x01 80%N], (Some [x68; x69], tt))))
    ([x00; x02] ++ repeat x2a 20 ++ [x07] ++ u64_bytes 2 ++ [x01; x02] ++ u64_bytes 1 ++ [x7f; x00; x00; x01; x00; x50] ++ [x01] ++ u64_bytes 2 ++ [x68; x69]).
Proof. eexists. split; [reflexivity|]. vm_compute. reflexivity. Qed.
(** a map is not measured: a repeated key is written once *)
Example ex_C127_not_measured : ~ measured (btreemap TU8 TU8 (fun x y => N.compare (N_of_byte x) (N_of_byte y))).
Proof.
  intros H. destruct (H (u64_bytes 2 ++ [x01; x05; x01; x06]) [(x01, (x06, tt))] []) as (used & bytes & E & (cs & C & W) & L); [vm_compute; reflexivity|].
  rewrite app_nil_r in E. vm_compute in C. injection C as <-. subst used bytes. vm_compute in L. discriminate.
Qed.
(** a header with an id of 21 bytes is written but not read back *)
Example ex_C126_long_id : ~ fits header_impl {| h_size := 23; h_version := PyIPV8Header; h_mid_hash := Some (repeat x2a 21); h_message_type := Some 5%N |}.
Proof. rewrite header_fits_iff. intros (mid & t & E & L & _). cbn in E. injection E as <-. discriminate. Qed.
