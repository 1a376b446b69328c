(** * EqualityProofs: [==] (C133) *)
From Coq Require Import Strings.String.
From Verif Require Import Base Serde Codec Universe Spec SerdeFacts CodecFacts UniverseFacts Packet Client PacketFacts CodecProofs Equality EqualitySpec.
Open Scope N_scope.

(** ** Parts *)
Lemma byte_eqb_iff a b : Byte.eqb a b = true <-> a = b.
Proof. split; [apply Byte.byte_dec_bl|apply Byte.byte_dec_lb]. Qed.
Lemma vec_eq_iff {A} (e : A -> A -> bool) (a b : list A) : (forall x y, e x y = true <-> x = y) -> (vec_eq e a b = true <-> a = b).
Proof.
  intros H. revert b. induction a as [|x a IH]; intros [|y b]; cbn; try (split; congruence).
  rewrite Bool.andb_true_iff, H, IH. split; [intros [-> ->]; reflexivity|intros E; injection E; auto].
Qed.
Lemma bytes_eq_iff a b : bytes_eq a b = true <-> a = b.
Proof. apply vec_eq_iff. apply byte_eqb_iff. Qed.
Lemma option_eq_iff {A} (e : A -> A -> bool) (a b : option A) : (forall x y, e x y = true <-> x = y) -> (option_eq e a b = true <-> a = b).
Proof. intros H. destruct a, b; cbn; try (split; congruence). rewrite H. split; congruence. Qed.
Lemma ct_eq_iff a b : connection_type_eq a b = true <-> a = b.
Proof. destruct a, b; cbn; split; congruence. Qed.
Ltac pieces := rewrite ?Bool.andb_true_iff, ?bytes_eq_iff, ?byte_eqb_iff, ?N.eqb_eq, ?Nat.eqb_eq, ?Bool.eqb_true_iff, ?ct_eq_iff.
Lemma address_eq_iff a b : address_eq a b = true <-> a = b.
Proof. destruct a, b; cbn; try (split; congruence); pieces; split; intuition congruence. Qed.
Lemma rawend_eq_iff a b : rawend_eq a b = true <-> a = b.
Proof. destruct a, b. unfold rawend_eq. cbn. pieces. split; congruence. Qed.
Lemma packet_eq_iff a b : packet_eq a b = true <-> a = b.
Proof. destruct a, b. unfold packet_eq. cbn. pieces. split; congruence. Qed.
Ltac record d := unfold d; cbn; pieces; rewrite ?address_eq_iff, ?rawend_eq_iff, ?packet_eq_iff; split; intuition congruence.
Lemma bits_eq_iff a b : bits_eq a b = true <-> a = b.
Proof. destruct a, b. record bits_eq. Qed.
Lemma nested_eq_iff a b : nested_eq a b = true <-> a = b.
Proof. destruct a, b. record nested_eq. Qed.
Lemma puncture_eq_iff a b : puncture_eq a b = true <-> a = b.
Proof. destruct a, b. record puncture_eq. Qed.
Lemma puncture_request_eq_iff a b : puncture_request_eq a b = true <-> a = b.
Proof. destruct a, b. record puncture_request_eq. Qed.
Lemma introduction_request_eq_iff a b : introduction_request_eq a b = true <-> a = b.
Proof. destruct a, b. record introduction_request_eq. Qed.
Lemma introduction_response_eq_iff a b : introduction_response_eq a b = true <-> a = b.
Proof. destruct a, b. record introduction_response_eq. Qed.
Lemma bin_member_eq_iff a b : bin_member_eq a b = true <-> a = b.
Proof. destruct a, b. record bin_member_eq. Qed.
Lemma varlen16_eq_iff a b : varlen16_eq a b = true <-> a = b.
Proof. destruct a, b. record varlen16_eq. Qed.
Lemma varlen32_eq_iff a b : varlen32_eq a b = true <-> a = b.
Proof. destruct a, b. record varlen32_eq. Qed.
Lemma varlen64_eq_iff a b : varlen64_eq a b = true <-> a = b.
Proof. destruct a, b. record varlen64_eq. Qed.
Lemma time_eq_iff a b : time_eq a b = true <-> a = b.
Proof. destruct a, b. record time_eq. Qed.

(** ** Floating-point numbers *)
Lemma nan32_iff x : x < 2 ^ 32 -> (float_nan 8 23 x = true <-> nan32 x).
Proof.
  intros H. unfold float_nan, float_exponent, float_mantissa, nan32. rewrite Bool.andb_true_iff, Bool.negb_true_iff, N.eqb_eq, N.eqb_neq.
  change (2 ^ 8) with 256. change (2 ^ 23) with 8388608. change (2 ^ 32) with 4294967296 in H. zify. Z.to_euclidean_division_equations. lia.
Qed.
Lemma nan64_iff x : x < 2 ^ 64 -> (float_nan 11 52 x = true <-> nan64 x).
Proof.
  intros H. unfold float_nan, float_exponent, float_mantissa, nan64. rewrite Bool.andb_true_iff, Bool.negb_true_iff, N.eqb_eq, N.eqb_neq.
  change (2 ^ 11) with 2048. change (2 ^ 52) with 4503599627370496. change (2 ^ 64) with 18446744073709551616 in H. zify. Z.to_euclidean_division_equations. lia.
Qed.
Lemma zero32_iff x : x < 2 ^ 32 -> (float_zero 8 23 x = true <-> x = 0 \/ x = 0x80000000).
Proof.
  intros H. unfold float_zero, float_exponent, float_mantissa. rewrite Bool.andb_true_iff, !N.eqb_eq.
  change (2 ^ 8) with 256. change (2 ^ 23) with 8388608. change (2 ^ 32) with 4294967296 in H. zify. Z.to_euclidean_division_equations. lia.
Qed.
Lemma zero64_iff x : x < 2 ^ 64 -> (float_zero 11 52 x = true <-> x = 0 \/ x = 0x8000000000000000).
Proof.
  intros H. unfold float_zero, float_exponent, float_mantissa. rewrite Bool.andb_true_iff, !N.eqb_eq.
  change (2 ^ 11) with 2048. change (2 ^ 52) with 4503599627370496. change (2 ^ 64) with 18446744073709551616 in H. zify. Z.to_euclidean_division_equations. lia.
Qed.

Lemma float32_iff x y : x < 2 ^ 32 -> y < 2 ^ 32 -> (float_eq 8 23 x y = true <-> ~ nan32 x /\ positive_zeros TF32 x = positive_zeros TF32 y).
Proof.
  intros Hx Hy. pose proof (nan32_iff x Hx) as Nx. pose proof (nan32_iff y Hy) as Ny. pose proof (zero32_iff x Hx) as Zx. pose proof (zero32_iff y Hy) as Zy.
  unfold float_eq. cbn [positive_zeros]. change (2 ^ 32) with 4294967296 in *. unfold nan32 in *.
  destruct (float_nan 8 23 x), (float_nan 8 23 y), (float_zero 8 23 x), (float_zero 8 23 y); cbn [orb andb];
    destruct (N.eqb_spec x 0x80000000), (N.eqb_spec y 0x80000000); rewrite ?N.eqb_eq; split; intros; try discriminate; lia.
Qed.
Lemma float64_iff x y : x < 2 ^ 64 -> y < 2 ^ 64 -> (float_eq 11 52 x y = true <-> ~ nan64 x /\ positive_zeros TF64 x = positive_zeros TF64 y).
Proof.
  intros Hx Hy. pose proof (nan64_iff x Hx) as Nx. pose proof (nan64_iff y Hy) as Ny. pose proof (zero64_iff x Hx) as Zx. pose proof (zero64_iff y Hy) as Zy.
  unfold float_eq. cbn [positive_zeros]. change (2 ^ 64) with 18446744073709551616 in *. unfold nan64 in *.
  destruct (float_nan 11 52 x), (float_nan 11 52 y), (float_zero 11 52 x), (float_zero 11 52 y); cbn [orb andb];
    destruct (N.eqb_spec x 0x8000000000000000), (N.eqb_spec y 0x8000000000000000); rewrite ?N.eqb_eq; split; intros; try discriminate; lia.
Qed.

Definition eq_P (t : ty) : Prop := forall v w : tval t, in_range t v -> in_range t w -> (eq t v w = true <-> ~ has_nan t v /\ positive_zeros t v = positive_zeros t w).
Definition eqs_P (fs : tys) : Prop :=
  (forall v w : tvals fs, in_ranges fs v -> in_ranges fs w -> (eqs fs v w = true <-> ~ some_nan fs v /\ positive_zeross fs v = positive_zeross fs w)) /\
  (forall v w : talts fs, variant_in_range fs v -> variant_in_range fs w -> (eqalts fs v w = true <-> ~ variant_nan fs v /\ variant_positive_zeros fs v = variant_positive_zeros fs w)).

Lemma plain (A : Type) (e : A -> A -> bool) (v w : A) : (e v w = true <-> v = w) -> (e v w = true <-> ~ False /\ v = w).
Proof. intros ->. tauto. Qed.

Lemma eq_all : (forall t, eq_P t) /\ (forall fs, eqs_P fs).
Proof.
  apply ty_tys_ind; unfold eq_P; cbn [eq has_nan positive_zeros tval]; intros;
    try (apply plain; (apply byte_eqb_iff || apply N.eqb_eq || apply bytes_eq_iff || apply bits_eq_iff || apply address_eq_iff || apply varlen16_eq_iff || apply varlen32_eq_iff
      || apply varlen64_eq_iff || apply rawend_eq_iff || apply nested_eq_iff || apply time_eq_iff || apply puncture_eq_iff || apply puncture_request_eq_iff
      || apply introduction_request_eq_iff || apply introduction_response_eq_iff || apply bin_member_eq_iff || apply Bool.eqb_true_iff || apply Z.eqb_eq)).
  - apply H; assumption.
  - now apply float32_iff.
  - now apply float64_iff.
  - (* option *) destruct v as [x|], w as [y|]; cbn [option_eq option_map].
    + rewrite (H x y H0 H1). split.
      * intros [N ->]. split; [|reflexivity]. intros (z & E & Z). injection E as <-. auto.
      * intros [N E]. injection E as E. split; [|exact E]. intros Z. apply N. eauto.
    + split; [discriminate|intros [_ E]; discriminate E].
    + split; [discriminate|intros [_ E]; discriminate E].
    + split; [|reflexivity]. intros _. split; [|reflexivity]. intros (z & E & _). discriminate E.
  - (* vec *) destruct H0 as [_ H0], H1 as [_ H1]. revert w H1. induction v as [|x v IH]; intros [|y w] H1; cbn [vec_eq map].
    + split; [|reflexivity]. intros _. split; [|reflexivity]. intros (z & [] & _).
    + split; [discriminate|intros [_ E]; discriminate E].
    + split; [discriminate|intros [_ E]; discriminate E].
    + inversion H0; subst. inversion H1; subst. rewrite Bool.andb_true_iff, H, IH by assumption. split.
      * intros [[N1 ->] [N2 ->]]. split; [|reflexivity]. intros (z & [<-|I] & Z); [auto|]. apply N2. eauto.
      * intros [N E]. injection E as E1 E2. repeat split; try assumption; [intros Z; apply N; exists x; split; [now left|assumption]|].
        intros (z & I & Z). apply N. exists z. split; [now right|assumption].
  - (* enum *) apply H; [apply H0|apply H1].
  - split; [intros [] []; cbn; tauto|intros []].
  - destruct H0 as [S V]. split.
    + intros [x v] [y w] [R1 R2] [R3 R4]. cbn [eqs some_nan positive_zeross fst snd] in *. rewrite Bool.andb_true_iff, (H x y), (S v w) by assumption. split.
      * intros [[N1 ->] [N2 ->]]. tauto.
      * intros [N E]. injection E as E1 E2. tauto.
    + intros [x|v] [y|w] R1 R2; cbn [eqalts variant_nan variant_positive_zeros variant_in_range] in *.
      * rewrite (H x y) by assumption. split; intros [N E]; (split; [exact N|congruence]).
      * split; [discriminate|intros [_ E]; discriminate E].
      * split; [discriminate|intros [_ E]; discriminate E].
      * rewrite (V v w) by assumption. split; intros [N E]; (split; [exact N|congruence]).
Qed.

(** C133: [==] on values of any payload type holds exactly when both are the same but for the signs of zeros, and contain nothing that is not a number. *)
Lemma p_C133_what_equality_means :
  forall (t : ty) (v w : tval t), in_range t v -> in_range t w ->
  (eq t v w = true <-> ~ has_nan t v /\ positive_zeros t v = positive_zeros t w).
Proof. exact (proj1 eq_all). Qed.

Definition nf_P (t : ty) : Prop := has_float t = false -> forall v : tval t, ~ has_nan t v /\ positive_zeros t v = v.
Lemma no_float_all : (forall t, nf_P t) /\ (forall fs, some_float fs = false ->
   (forall v : tvals fs, ~ some_nan fs v /\ positive_zeross fs v = v) /\ (forall v : talts fs, ~ variant_nan fs v /\ variant_positive_zeros fs v = v)).
Proof.
  apply ty_tys_ind; unfold nf_P; cbn [has_float has_nan positive_zeros tval some_float]; intros; try discriminate; try (split; [tauto|reflexivity]).
  - apply H; assumption.
  - destruct v as [x|]; cbn [option_map].
    + destruct (H H0 x) as [N ->]. split; [|reflexivity]. intros (z & E & Z). injection E as <-. auto.
    + split; [|reflexivity]. intros (z & E & _). discriminate E.
  - split.
    + intros (z & _ & Z). exact (proj1 (H H0 z) Z).
    + induction v as [|x v IH]; cbn; [reflexivity|]. now rewrite IH, (proj2 (H H0 x)).
  - apply H; assumption.
  - split; [intros []; cbn; tauto|intros []].
  - apply Bool.orb_false_iff in H1 as [F1 F2]. destruct (H0 F2) as [S V]. split.
    + intros [x v]. cbn [some_nan positive_zeross fst snd]. destruct (H F1 x) as [N ->], (S v) as [M ->]. tauto.
    + intros [x|v]; cbn [variant_nan variant_positive_zeros]; [destruct (H F1 x) as [N ->]|destruct (V v) as [N ->]]; auto.
Qed.

Definition ex_P (t : ty) : Prop := has_float t = false -> forall v w : tval t, eq t v w = true <-> v = w.
Lemma exact_all : (forall t, ex_P t) /\ (forall fs, some_float fs = false ->
   (forall v w : tvals fs, eqs fs v w = true <-> v = w) /\ (forall v w : talts fs, eqalts fs v w = true <-> v = w)).
Proof.
  apply ty_tys_ind; unfold ex_P; cbn [has_float eq tval some_float]; intros; try discriminate;
    try (apply byte_eqb_iff || apply N.eqb_eq || apply bytes_eq_iff || apply bits_eq_iff || apply address_eq_iff || apply varlen16_eq_iff || apply varlen32_eq_iff
      || apply varlen64_eq_iff || apply rawend_eq_iff || apply nested_eq_iff || apply time_eq_iff || apply puncture_eq_iff || apply puncture_request_eq_iff
      || apply introduction_request_eq_iff || apply introduction_response_eq_iff || apply bin_member_eq_iff || apply Bool.eqb_true_iff || apply Z.eqb_eq).
  - now apply H.
  - apply option_eq_iff. intros. now apply H.
  - apply vec_eq_iff. intros. now apply H.
  - now apply H.
  - split; [intros [] []; cbn; tauto|intros []].
  - apply Bool.orb_false_iff in H1 as [F1 F2]. destruct (H0 F2) as [S V]. split.
    + intros [x v] [y w]. cbn [eqs fst snd]. rewrite Bool.andb_true_iff, (H F1 x y), (S v w). split; [intros [-> ->]; reflexivity|intros E; injection E; auto].
    + intros [x|v] [y|w]; cbn [eqalts]; [rewrite (H F1 x y)| | |rewrite (V v w)]; split; congruence.
Qed.

(** C133: Without floating-point numbers (all types of the library are without), it holds exactly for the same values: nothing is ignored. *)
Lemma p_C133_exact :
  forall (t : ty) (v w : tval t), has_float t = false -> (eq t v w = true <-> v = w).
Proof. intros t v w H. now apply (proj1 exact_all t H). Qed.

(** C133: The same for headers, packets, and deserializers with their cursors. *)
Lemma p_C133_headers_and_packets :
  (forall h h' : header, header_eq h h' = true <-> h = h') /\
  (forall p p' : packet, packet_eq p p' = true <-> p = p') /\
  (forall d d' : deserializer, deserializer_eq d d' = true <-> d = d').
Proof.
  split; [|split].
  - intros [s [] m t] [s' [] m' t']. unfold header_eq. cbn. rewrite !Bool.andb_true_iff, Nat.eqb_eq, (option_eq_iff bytes_eq _ _ bytes_eq_iff), (option_eq_iff N.eqb _ _ N.eqb_eq).
    split; [intros [[[-> _] ->] ->]; reflexivity|intros E; injection E; auto].
  - exact packet_eq_iff.
  - intros [p i] [p' i']. unfold deserializer_eq. cbn. rewrite Bool.andb_true_iff, packet_eq_iff, Nat.eqb_eq. split; [intros [-> ->]; reflexivity|intros E; injection E; auto].
Qed.

Lemma nan_zeros_all : (forall t (v : tval t), has_nan t (positive_zeros t v) <-> has_nan t v) /\
  (forall fs, (forall v : tvals fs, some_nan fs (positive_zeross fs v) <-> some_nan fs v) /\ (forall v : talts fs, variant_nan fs (variant_positive_zeros fs v) <-> variant_nan fs v)).
Proof.
  apply ty_tys_ind; cbn [has_nan positive_zeros tval]; intros; try tauto.
  - apply H.
  - destruct (N.eqb_spec v 0x80000000) as [->|]; [unfold nan32; lia|tauto].
  - destruct (N.eqb_spec v 0x8000000000000000) as [->|]; [unfold nan64; lia|tauto].
  - destruct v as [x|]; cbn [option_map]; split; intros (z & E & Z); try discriminate E; injection E as <-; eexists; (split; [reflexivity|]); now apply H.
  - split; intros (z & I & Z).
    + apply in_map_iff in I as (y & <- & I). exists y. split; [exact I|]. now apply H.
    + exists (positive_zeros t z). split; [now apply in_map|]. now apply H.
  - apply H.
  - destruct H0 as [S V]. split.
    + intros [x v]. cbn [some_nan positive_zeross fst snd]. rewrite H, S. tauto.
    + intros [x|v]; cbn [variant_nan variant_positive_zeros]; [apply H|apply V].
Qed.

(** C133: For every type, equality is symmetric and transitive. *)
Lemma p_C133_symmetric_transitive :
  forall (t : ty) (u v w : tval t), in_range t u -> in_range t v -> in_range t w ->
  eq t u v = eq t v u /\ (eq t u v = true -> eq t v w = true -> eq t u w = true).
Proof.
  assert (S : forall (t : ty) (u v : tval t), in_range t u -> in_range t v -> eq t u v = true -> eq t v u = true).
  { intros t u v Ru Rv E. apply (p_C133_what_equality_means t u v Ru Rv) in E as [N E].
    apply (p_C133_what_equality_means t v u Rv Ru). split; [|now symmetry]. intros Z. apply N. apply (proj1 nan_zeros_all). rewrite E. now apply (proj1 nan_zeros_all). }
  intros t u v w Ru Rv Rw. split.
  - destruct (eq t u v) eqn:E; [symmetry; now apply S|]. destruct (eq t v u) eqn:E'; [|reflexivity]. apply S in E'; congruence.
  - intros E1 E2. apply (p_C133_what_equality_means t u v Ru Rv) in E1 as [N1 E1]. apply (p_C133_what_equality_means t v w Rv Rw) in E2 as [N2 E2].
    apply (p_C133_what_equality_means t u w Ru Rw). split; [exact N1|congruence].
Qed.

(** C133: A value is equal to itself exactly if it contains nothing that is not a number. *)
Lemma p_C133_reflexive_iff :
  forall (t : ty) (v : tval t), in_range t v -> (eq t v v = true <-> ~ has_nan t v).
Proof. intros t v R. rewrite (p_C133_what_equality_means t v v R R). tauto. Qed.

(** C133: What is read back is equal to what was added: always, unless a number in it is not a number, or it contains an introduction response with the tunnel flag (C12). *)
Lemma p_C133_round_trip :
  forall (t : ty) (p q : packet) (v w : tval t) (d : deserializer),
  in_range t v -> raw_at_end_only t = true -> has_introduction t = false ->
  packet_add t p v = (q, Ok tt) ->
  next_payload t {| pntr := q; index := length (packet_raw p) |} = (d, Ok w) ->
  (eq t w v = true <-> ~ has_nan t v).
Proof.
  intros t p q v w d R RE HI A N. rewrite (p_C06_round_trip_raw_tail t p q v R RE A) in N. injection N as _ N. subst w.
  rewrite (p_C06_nothing_lost t v HI). now apply p_C133_reflexive_iff.
Qed.

(** C133: An introduction response that was read back is equal to the one that was added exactly if that one did not have the tunnel flag. *)
Lemma p_C133_introduction_response :
  forall (p q : packet) (v w : introduction_response) (d : deserializer),
  in_range TIntroductionResponse v ->
  packet_add TIntroductionResponse p v = (q, Ok tt) ->
  next_payload TIntroductionResponse {| pntr := q; index := length (packet_raw p) |} = (d, Ok w) ->
  (eq TIntroductionResponse w v = true <-> ir_tunnel v = false).
Proof.
  intros p q v w d R A N. rewrite (p_C12_response_loses_tunnel_flag p q v R A) in N. injection N as _ N. subst w.
  cbn [eq]. rewrite introduction_response_eq_iff. destruct v as [a b c e f t g h i]; cbn. split; [intros E; now injection E as <-|intros ->; reflexivity].
Qed.

(** C133: Without floating-point numbers and introduction responses, two values are equal exactly if they are written as the same bytes: packets can be compared instead of messages and the other way round. *)
Lemma p_C133_equal_iff_same_bytes :
  forall (t : ty) (p q q' : packet) (v w : tval t),
  has_float t = false -> has_introduction t = false -> raw_at_end_only t = true -> in_range t v -> in_range t w ->
  packet_add t p v = (q, Ok tt) -> packet_add t p w = (q', Ok tt) ->
  eq t v w = packet_eq q q'.
Proof.
  intros t p q q' v w F I RE Rv Rw A B. apply Bool.eq_iff_eq_true. rewrite (p_C133_exact t v w F), packet_eq_iff. split.
  - intros <-. congruence.
  - intros <-. exact (p_C11_injective_exact t p q v w RE I Rv Rw A B).
Qed.

(** C133: With floating-point numbers both directions fail: equal values with different bytes, and a value that is not equal to itself, so not to what is read back either. *)
Lemma p_C133_floats_refuted :
  (exists v w q q', in_range TF64 v /\ in_range TF64 w /\ eq TF64 v w = true /\
     packet_add TF64 (Packet []) v = (q, Ok tt) /\ packet_add TF64 (Packet []) w = (q', Ok tt) /\ packet_eq q q' = false) /\
  (exists v w q d, in_range TF64 v /\ packet_add TF64 (Packet []) v = (q, Ok tt) /\ next_payload TF64 (start_deserialize q) = (d, Ok w) /\ w = v /\ eq TF64 w v = false).
Proof.
  split.
  - exists 0, 0x8000000000000000. do 2 eexists. repeat split; vm_compute; reflexivity.
  - exists 0x7ff8000000000000, 0x7ff8000000000000. do 2 eexists. repeat split; vm_compute; reflexivity.
Qed.

(** a struct with a number in it, an IPv4 address and raw bytes at the end *)
Definition ex_eq_ty : ty := TStruct (FCons TF32 (FCons TAddress (FCons (TVec (TOption TF64)) (FCons TRawEnd FNil)))).
Definition ex_eq_val (x y : N) : tval ex_eq_ty := (x, (V4 x7f x00 x00 x01 8000, ([None; Some y], (RawEnd [x01; x02], tt)))).
Example ex_C133_zeros :
  in_range ex_eq_ty (ex_eq_val 0x80000000 0x3ff0000000000000) /\ raw_at_end_only ex_eq_ty = true /\ has_introduction ex_eq_ty = false /\
  ex_eq_val 0x80000000 0x3ff0000000000000 <> ex_eq_val 0 0x3ff0000000000000 /\
  eq ex_eq_ty (ex_eq_val 0x80000000 0x3ff0000000000000) (ex_eq_val 0 0x3ff0000000000000) = true /\
  eq ex_eq_ty (ex_eq_val 0 0x3ff0000000000001) (ex_eq_val 0 0x3ff0000000000000) = false /\
  has_nan ex_eq_ty (ex_eq_val 0 0xfff0000000000001) /\ ~ has_nan ex_eq_ty (ex_eq_val 0xff800000 0).
Proof.
  split; [cbn; unfold len; cbn; repeat split; repeat constructor; lia|]. split; [reflexivity|]. split; [reflexivity|]. split; [discriminate|]. split; [vm_compute; reflexivity|]. split; [vm_compute; reflexivity|].
  split.
  - right. right. left. exists (Some 0xfff0000000000001). split; [now (right; left)|]. exists 0xfff0000000000001. split; [reflexivity|]. cbn. unfold nan64. lia.
  - intros [H|[[]|[H|[[]|[]]]]].
    + cbn in H. unfold nan32 in H. lia.
    + destruct H as (z & [<-|[<-|[]]] & y & E & Z); [discriminate E|]. injection E as <-. cbn in Z. unfold nan64 in Z. lia.
Qed.
Example ex_C133_written :
  has_float example_ty = false /\ has_introduction example_ty = false /\ raw_at_end_only example_ty = true /\ in_range example_ty example_val /\
  exists q, packet_add example_ty (Packet [xaa]) example_val = (q, Ok tt).
Proof. split; [reflexivity|]. split; [reflexivity|]. split; [reflexivity|]. split; [vm_compute; repeat split; congruence|]. eexists. vm_compute. reflexivity. Qed.
