(** * CostProofs: proofs of C125 *)
From Coq Require Import Strings.String.
From Verif Require Import Base Serde Codec Universe Spec SerdeFacts CodecFacts UniverseFacts Packet Client PacketFacts Cost CostSpec.
Open Scope N_scope.

(** ** The results are those of the decoders *)
Lemma snd_cbind {A B} (m : costly A) (k : A -> costly B) : snd (cbind m k) = bind (snd m) (fun a => snd (k a)).
Proof. unfold cbind. now destruct (snd m). Qed.
Lemma snd_spend {A} c (m : costly A) : snd (spend c m) = snd m.
Proof. reflexivity. Qed.
Lemma snd_free {A} (o : outcome A) : snd (free o) = o.
Proof. reflexivity. Qed.
Lemma snd_prim {A} (d : list byte -> dres A) b : snd (prim d b) = d b.
Proof. reflexivity. Qed.
Lemma bind_ext {A B} (m m' : outcome A) (k k' : A -> outcome B) : m = m' -> (forall a, k a = k' a) -> bind m k = bind m' k'.
Proof. intros -> E. destruct m'; cbn; auto. Qed.

Definition erases {S A} (f : S -> costly (A * S)) (g : S -> outcome (A * S)) : Prop := forall s, snd (f s) = g s.

Lemma erases_next_element {A} (f : list byte -> costly (A * list byte)) g : erases f g -> forall a, snd (c_next_element f a) = next_element g a.
Proof.
  intros E a. unfold c_next_element, next_element. rewrite snd_spend. destruct (acc_len a =? 0); [reflexivity|].
  rewrite snd_cbind, E. apply bind_ext; [reflexivity|]. now intros [v r].
Qed.
Lemma erases_next_required {A} (f : list byte -> costly (A * list byte)) g e : erases f g -> erases (c_next_required f e) (next_required g e).
Proof.
  intros E a. unfold c_next_required, next_required. rewrite snd_cbind, (erases_next_element _ _ E).
  apply bind_ext; [reflexivity|]. now intros [[v|] a'].
Qed.
Lemma erases_tuple {A} len (f : access -> costly (A * access)) g : erases f g -> erases (c_tuple len f) (deserialize_tuple len g).
Proof.
  intros E b. unfold c_tuple, deserialize_tuple. rewrite snd_cbind, E. apply bind_ext; [reflexivity|]. now intros [v a].
Qed.
Lemma erases_prim {A} (d : list byte -> dres A) : erases (prim d) d.
Proof. now intros b. Qed.

Lemma erases_read_many e : forall b n len have cap, snd (c_read_many e n len have cap b) = read_many_u8 e n len b.
Proof.
  induction b as [|x r IH]; intros n len have cap; cbn [c_read_many read_many_u8]; destruct (n =? 0); try reflexivity;
    rewrite snd_spend; destruct (len =? 0); try reflexivity; rewrite snd_spend.
  destruct (push 1 have cap) as [c cap']. rewrite snd_spend, snd_cbind, IH. apply bind_ext; [reflexivity|]. now intros [l a].
Qed.
Lemma erases_read_all : forall b len have cap, snd (c_read_all len have cap b) = read_all_u8 len b.
Proof.
  induction b as [|x r IH]; intros len have cap; cbn [c_read_all read_all_u8]; rewrite snd_spend; destruct (len =? 0); try reflexivity;
    rewrite snd_spend; try reflexivity.
  destruct (push 1 have cap) as [c cap']. rewrite snd_spend, snd_cbind, IH. apply bind_ext; [reflexivity|]. now intros [l a].
Qed.
Lemma erases_rawend_loop : forall b len have cap, snd (c_rawend_loop len have cap b) = rawend_loop len b.
Proof.
  induction b as [|x r IH]; intros len have cap; cbn [c_rawend_loop rawend_loop]; destruct (len =? 0); try reflexivity.
  destruct (push 1 have cap) as [c cap']. specialize (IH (N.pred len) (have + 1) cap').
  destruct (c_rawend_loop (N.pred len) (have + 1) cap' r) as [c' [l rest]]. cbn [snd] in IH. now rewrite <- IH.
Qed.
Lemma erases_elements {A} s (f : list byte -> costly (A * list byte)) g : erases f g ->
  forall n have cap b, snd (c_elements s f n have cap b) = seq_elements g n b.
Proof.
  intros E. induction n as [|n IH]; intros have cap b; cbn [c_elements seq_elements]; rewrite snd_spend; [reflexivity|].
  rewrite snd_cbind, E. apply bind_ext; [reflexivity|]. intros [x r]. destruct (push s have cap) as [c cap'].
  rewrite snd_spend, snd_cbind, IH. apply bind_ext; [reflexivity|]. now intros [xs r'].
Qed.
Lemma erases_fill e : forall n, erases (c_fill_u8 e n) (fill_u8 e n).
Proof.
  induction n as [|n IH]; intros s; cbn [c_fill_u8 fill_u8]; [reflexivity|].
  rewrite snd_cbind, (erases_next_required _ _ e (erases_prim de_u8)). apply bind_ext; [reflexivity|]. intros [x s'].
  rewrite snd_cbind, IH. apply bind_ext; [reflexivity|]. now intros [l s''].
Qed.

Ltac er1 :=
  first [ reflexivity
        | rewrite snd_cbind; apply bind_ext; [|intros [? ?]; cbn beta iota]
        | rewrite snd_cbind; apply bind_ext; [|intros ?; cbn beta iota]
        | rewrite snd_spend
        | apply erases_next_required
        | apply erases_prim
        | apply erases_read_many
        | apply erases_fill ].
Ltac er := repeat er1.

Lemma erases_vec_u8 : erases c_vec_u8 de_vec_u8.
Proof. intros b. unfold c_vec_u8, de_vec_u8. er. apply erases_tuple. intros a. apply erases_read_all. Qed.
Lemma erases_string : erases c_string de_string.
Proof. intros b. unfold c_string, de_string. er. destruct (N.of_nat (length l) <? n); [reflexivity|]. er. Qed.
Lemma erases_option {A} (f : list byte -> costly (A * list byte)) g : erases f g -> erases (c_option f) (de_option g).
Proof. intros E b. unfold c_option, de_option. er. destruct b0; er. apply E. Qed.
Lemma erases_vec {A} s (f : list byte -> costly (A * list byte)) g : erases f g -> erases (c_vec s f) (de_vec g).
Proof. intros E b. unfold c_vec, de_vec. er. now apply erases_elements. Qed.
Lemma erases_octets : erases c_octets4 de_octets4.
Proof. apply erases_tuple. intros a. cbv zeta. er. Qed.
Lemma erases_address : erases c_address de_address.
Proof. apply erases_tuple. intros a. cbv zeta. er; try apply erases_octets. destruct p as [[[? ?] ?] ?]. reflexivity. Qed.
Lemma erases_varlen16 : erases c_varlen16 de_varlen16.
Proof. apply erases_tuple. intros a. cbv zeta. er. Qed.
Lemma erases_varlen32 : erases c_varlen32 de_varlen32.
Proof. apply erases_tuple. intros a. cbv zeta. er. Qed.
Lemma erases_varlen64 : erases c_varlen64 de_varlen64.
Proof. intros b. unfold c_varlen64, de_varlen64. er. apply erases_vec_u8. Qed.
Lemma erases_rawend : erases c_rawend de_rawend.
Proof.
  apply erases_tuple. intros a. pose proof (erases_rawend_loop (acc_rest a) (acc_len a) 0 0) as E.
  destruct (c_rawend_loop (acc_len a) 0 0 (acc_rest a)) as [c [l r]]. cbn [snd] in E. now rewrite <- E.
Qed.
Lemma erases_nested : erases c_nested de_nested.
Proof. intros b. unfold c_nested, de_nested. er. apply erases_varlen16. Qed.
Lemma erases_time : erases c_time de_time.
Proof. apply erases_tuple. intros a. er. Qed.
Lemma erases_puncture : erases c_puncture de_puncture.
Proof. apply erases_tuple. intros a. cbv zeta. er; try apply erases_address. Qed.
Lemma erases_puncture_request : erases c_puncture_request de_puncture_request.
Proof. apply erases_tuple. intros a. cbv zeta. er; try apply erases_address. Qed.
Lemma erases_introduction_request : erases c_introduction_request de_introduction_request.
Proof. apply erases_tuple. intros a. cbv zeta. er; try first [apply erases_address|apply erases_rawend]. Qed.
Lemma erases_introduction_response : erases c_introduction_response de_introduction_response.
Proof. apply erases_tuple. intros a. cbv zeta. er; try first [apply erases_address|apply erases_rawend]. Qed.
Lemma erases_bin_member : erases c_bin_member de_bin_member.
Proof.
  intros b. unfold c_bin_member, de_bin_member. rewrite snd_cbind. apply bind_ext; [apply erases_varlen16|]. intros [v r]. cbv zeta beta iota.
  rewrite snd_cbind. apply bind_ext; [reflexivity|]. intros prefix. rewrite snd_spend. destruct (negb _); [reflexivity|].
  repeat (rewrite snd_cbind; apply bind_ext; [reflexivity|]; intros ?). reflexivity.
Qed.
Lemma erases_header : erases c_header de_header.
Proof.
  apply erases_tuple. intros a. cbv zeta.
  rewrite snd_cbind; apply bind_ext; [apply erases_next_required, erases_prim|]; intros [? ?]. destruct (push 1 0 0) as [c0 cap]. rewrite snd_spend.
  rewrite snd_cbind; apply bind_ext; [apply erases_next_required, erases_prim|]; intros [? ?]. destruct (push 1 1 cap) as [c1 cap1]. rewrite !snd_spend.
  destruct (bytes_eqb _ _); [|reflexivity]. er.
Qed.

Section Layout.
Context (size_of : ty -> N).

Lemma erases_all :
  (forall t, erases (c_de size_of t) (de t)) /\
  (forall fs, (forall i, erases (c_des size_of fs i) (des fs i)) /\ (forall i b, snd (c_dealts size_of fs i b) = dealts fs i b)).
Proof.
  apply ty_tys_ind; cbn [c_de de]; try apply erases_prim.
  - apply erases_vec_u8.
  - apply erases_address.
  - apply erases_varlen16.
  - apply erases_varlen32.
  - apply erases_varlen64.
  - apply erases_rawend.
  - apply erases_nested.
  - apply erases_time.
  - apply erases_puncture.
  - apply erases_puncture_request.
  - apply erases_introduction_request.
  - apply erases_introduction_response.
  - apply erases_bin_member.
  - intros fs [E _]. apply erases_tuple, E.
  - apply erases_string.
  - intros t E. now apply erases_option.
  - intros t E. now apply erases_vec.
  - intros vs [_ E] b. rewrite snd_cbind. apply bind_ext; [reflexivity|]. intros [i r]. apply E.
  - split; intros ? ?; reflexivity.
  - intros t E fs [E1 E2]. split.
    + intros i s. cbn [c_des des]. rewrite snd_cbind. apply bind_ext; [now apply erases_next_required|]. intros [x s'].
      rewrite snd_cbind, E1. apply bind_ext; [reflexivity|]. now intros [xs s''].
    + intros i b. cbn [c_dealts dealts]. rewrite snd_spend. destruct (i =? 0); rewrite snd_cbind.
      * rewrite E. apply bind_ext; [reflexivity|]. now intros [x r].
      * rewrite E2. apply bind_ext; [reflexivity|]. now intros [x r].
Qed.
Lemma erases_de t b : snd (c_de size_of t b) = de t b.
Proof. apply (proj1 erases_all). Qed.

Lemma erases_next_payload t d : snd (c_next_payload size_of t d) = next_payload t d.
Proof.
  unfold c_next_payload, next_payload. cbn [snd]. rewrite snd_cbind, snd_free.
  destruct (or_panic (slice_from (packet_bytes (pntr d)) (index d))) as [s| |]; cbn [bind]; try reflexivity.
  rewrite snd_cbind, erases_de. destruct (de t s) as [[v r]| |]; cbn [bind]; try reflexivity.
  rewrite snd_spend, snd_cbind, snd_free. now destruct (bincode_serialized_size (ser t v)).
Qed.
End Layout.
Lemma erases_peek d : snd (c_peek_header d) = peek_header d.
Proof.
  unfold c_peek_header, peek_header. rewrite snd_cbind, snd_free. apply bind_ext; [reflexivity|]. intros s.
  rewrite snd_cbind, erases_header. apply bind_ext; [reflexivity|]. now intros [h r].
Qed.
Lemma erases_pop d : snd (c_pop_header d) = pop_header d.
Proof. unfold c_pop_header, pop_header. cbn [snd]. now rewrite erases_peek. Qed.

(** ** Bounds *)
Definition bsize (b : list byte) : N := N.of_nat (length b).
Definition asize (a : access) : N := bsize (acc_rest a).

Section Weights.
Context (wr wm : N).
Definition mu (c : cost) : N := wr * steps c + wm * memory c.
Lemma mu_plus a b : mu (plus a b) = mu a + mu b.
Proof. unfold mu, plus. cbn [steps memory]. lia. Qed.
Lemma mu_le c x y : steps c <= x -> memory c <= y -> mu c <= wr * x + wm * y.
Proof. intros H1 H2. unfold mu. apply N.add_le_mono; now apply N.mul_le_mono_l. Qed.

(** [K] per byte and [B] in all; on success of the bytes read, on failure of all that are there and [F] more *)
Definition bounded {St A} (size : St -> N) (K F B : N) (f : St -> costly (A * St)) : Prop :=
  forall s,
    match f s with
    | (c, Ok (_, s')) => size s' <= size s /\ mu c + K * size s' <= K * size s + B
    | (c, _) => mu c <= K * size s + B + F
    end.

Lemma bounded_weaken {St A} (size : St -> N) K F B K' F' B' (f : St -> costly (A * St)) :
  bounded size K F B f -> K <= K' -> F <= F' -> B <= B' -> bounded size K' F' B' f.
Proof.
  intros H HK HF HB s. specialize (H s). destruct (f s) as [c [[a s']|e|p]].
  - destruct H as [H1 H2]. split; [assumption|].
    replace K' with (K + (K' - K)) by lia. set (dk := K' - K).
    pose proof (N.mul_le_mono_l _ _ dk H1). lia.
  - pose proof (N.mul_le_mono_r _ _ (size s) HK). lia.
  - pose proof (N.mul_le_mono_r _ _ (size s) HK). lia.
Qed.
Lemma bounded_ret {St A} (size : St -> N) K F (a : A) : bounded size K F 0 (fun s => free (Ok (a, s))).
Proof. intros s. unfold free, mu. cbn [steps memory]. lia. Qed.
Lemma bounded_err {St A} (size : St -> N) K F e : bounded size K F 0 (fun s => @free (A * St) (Err e)).
Proof. intros s. unfold free, mu. cbn [steps memory]. lia. Qed.
Lemma bounded_spend {St A} (size : St -> N) K F B k (f : St -> costly (A * St)) :
  bounded size K F B f -> bounded size K F (mu k + B) (fun s => spend k (f s)).
Proof.
  intros H s. specialize (H s). unfold spend. destruct (f s) as [c [[a s']|e|p]]; cbn [fst snd]; rewrite mu_plus; lia.
Qed.
Lemma bounded_bind {St A A'} (size : St -> N) K F B1 B2 (f : St -> costly (A * St)) (g : A -> St -> costly (A' * St)) :
  bounded size K F B1 f -> (forall a, bounded size K F B2 (g a)) ->
  bounded size K F (B1 + B2) (fun s => cbind (f s) (fun p => let (a, s') := p in g a s')).
Proof.
  intros H G s. specialize (H s). unfold cbind. destruct (f s) as [c [[a s']|e|p]]; cbn [fst snd]; [|lia|lia].
  specialize (G a s'). unfold spend. destruct (g a s') as [c' [[a' s'']|e|p]]; cbn [fst snd]; rewrite mu_plus; lia.
Qed.
Lemma bounded_map {St A A'} (size : St -> N) K F B (f : St -> costly (A * St)) (g : A -> A') :
  bounded size K F B f -> bounded size K F B (fun s => cbind (f s) (fun p => let (a, s') := p in free (Ok (g a, s')))).
Proof.
  intros H. replace B with (B + 0) by lia. apply bounded_bind; [assumption|]. intros a. apply bounded_ret.
Qed.
Lemma bounded_prim {A} K F (d : list byte -> dres A) :
  (forall b v r, d b = Ok (v, r) -> (length r <= length b)%nat) -> bounded bsize K F wr (prim d).
Proof.
  intros H b. unfold prim, mu, bsize. cbn [steps memory]. destruct (d b) as [[v r]|e|p] eqn:E; [|lia|lia].
  specialize (H _ _ _ E). split; [lia|]. assert (K * N.of_nat (length r) <= K * N.of_nat (length b)) by (apply N.mul_le_mono_l; lia). lia.
Qed.
Lemma bounded_next_required {A} K F B (f : list byte -> costly (A * list byte)) e :
  bounded bsize K F B f -> bounded asize K F (wr + B) (c_next_required f e).
Proof.
  intros H [n b]. unfold c_next_required, c_next_element, asize. cbn [acc_len acc_rest]. specialize (H b). unfold cbind, spend, free.
  destruct (n =? 0); cbn [fst snd]; [unfold mu; cbn; lia|].
  destruct (f b) as [c [[v r]|er|p]]; cbn [fst snd acc_rest]; rewrite ?mu_plus; unfold mu in *; cbn [steps memory] in *; lia.
Qed.
Lemma bounded_tuple {A} K F B n (visit : access -> costly (A * access)) :
  bounded asize K F B visit -> bounded bsize K F B (c_tuple n visit).
Proof.
  intros H b. specialize (H (Access n b)). unfold c_tuple, cbind, spend, free. destruct (visit (Access n b)) as [c [[v a]|e|p]]; cbn [fst snd]; [|exact H|exact H].
  rewrite mu_plus. unfold asize in H. cbn [acc_rest] in H. unfold mu in *. cbn [steps memory]. lia.
Qed.

(** *** Primitives *)
Lemma rest_u8 b v r : de_u8 b = Ok (v, r) -> (length r <= length b)%nat.
Proof. destruct b; cbn; intros [= <- <-]; lia. Qed.
Lemma rest_uint k b v r : de_uint k b = Ok (v, r) -> (length r <= length b)%nat.
Proof. unfold de_uint. destruct (length b <? k)%nat; [discriminate|]. intros [= <- <-]. rewrite skipn_length. lia. Qed.
Lemma rest_of t b v r : de t b = Ok (v, r) -> (length r <= length b)%nat.
Proof. intros E. destruct (f_ok t (facts_of t) _ _ _ E) as (c & -> & _). rewrite app_length. lia. Qed.

(** *** Loops *)
Lemma first_capacity_range s : 1 <= first_capacity s <= 8.
Proof. unfold first_capacity. destruct (s <=? 1), (s <=? 1024); lia. Qed.
Lemma push_spec s have cap : have <= cap -> forall c cap', push s have cap = (c, cap') ->
  steps c = 1 /\ have + 1 <= cap' /\
  forall R m, R + 2 * (s * cap') <= N.max (2 * (s * cap')) (4 * (s * (have + 1 + m)) + 8 * s) ->
              memory c + R + 2 * (s * cap) <= N.max (2 * (s * cap)) (4 * (s * (have + 1 + m)) + 8 * s).
Proof.
  intros L c cap'. unfold push. cbv zeta. destruct (N.eqb_spec have cap) as [->|E]; intros P; apply pair_equal_spec in P as [<- <-]; cbn [steps memory].
  - pose proof (first_capacity_range s). split; [reflexivity|]. split; [lia|]. intros R m H0.
    assert (s * N.max (first_capacity s) (2 * cap) = N.max (s * first_capacity s) (s * (2 * cap))) as X by (now rewrite N.mul_max_distr_l).
    assert (s * first_capacity s <= s * 8) by (apply N.mul_le_mono_l; apply first_capacity_range).
    rewrite X in *. pose proof (N.mul_add_distr_l s (cap + 1) m). pose proof (N.mul_add_distr_l s cap 1). lia.
  - split; [reflexivity|]. split; [lia|]. intros R m H. lia.
Qed.

Lemma read_many_bound e : forall b n len have cap, have <= cap ->
  match c_read_many e n len have cap b with
  | (c, Ok (_, a)) => exists m, bsize b = asize a + m /\ steps c <= 3 * m /\ memory c + 2 * cap <= N.max (2 * cap) (4 * (have + m) + 8)
  | (c, _) => steps c <= 3 * bsize b + 2 /\ memory c + 2 * cap <= N.max (2 * cap) (4 * (have + bsize b) + 8)
  end.
Proof.
  induction b as [|x r IH]; intros n len have cap L; cbn [c_read_many].
  - destruct (n =? 0); unfold free; [exists 0; unfold asize; cbn [acc_rest steps memory]; lia|].
    destruct (len =? 0); unfold spend, free, plus; cbn [fst snd steps memory]; lia.
  - destruct (n =? 0); unfold free; [exists 0; unfold asize; cbn [acc_rest steps memory]; lia|].
    destruct (len =? 0); [unfold spend, free, plus; cbn [fst snd steps memory]; lia|].
    destruct (push 1 have cap) as [c cap'] eqn:P. destruct (push_spec _ _ _ L _ _ P) as (S1 & L' & M).
    specialize (IH (N.pred n) (N.pred len) (have + 1) cap' L'). unfold cbind.
    assert (bsize (x :: r) = bsize r + 1) as SZ by (unfold bsize; cbn [length]; lia). rewrite SZ.
    destruct (c_read_many e (N.pred n) (N.pred len) (have + 1) cap' r) as [c' [[l a]|er|p]]; unfold spend, free, plus; cbn [fst snd steps memory].
    + destruct IH as (m & E1 & E2 & E3). exists (m + 1). split; [lia|]. split; [lia|]. specialize (M (memory c') m). lia.
    + destruct IH as (E2 & E3). split; [lia|]. specialize (M (memory c') (bsize r)). lia.
    + destruct IH as (E2 & E3). split; [lia|]. specialize (M (memory c') (bsize r)). lia.
Qed.
Lemma read_all_bound : forall b len have cap, have <= cap ->
  match c_read_all len have cap b with
  | (c, Ok (_, a)) => exists m, bsize b = asize a + m /\ m = len /\ steps c <= 3 * m + 1 /\ memory c + 2 * cap <= N.max (2 * cap) (4 * (have + m) + 8)
  | (c, _) => steps c <= 3 * bsize b + 2 /\ memory c + 2 * cap <= N.max (2 * cap) (4 * (have + bsize b) + 8)
  end.
Proof.
  induction b as [|x r IH]; intros len have cap L; cbn [c_read_all].
  - destruct (N.eqb_spec len 0) as [->|Z]; unfold spend, free, plus; cbn [fst snd steps memory]; [exists 0; unfold asize; cbn [acc_rest]; lia|lia].
  - destruct (N.eqb_spec len 0) as [->|Z]; [unfold spend, free, plus; cbn [fst snd steps memory]; exists 0; unfold asize; cbn [acc_rest]; lia|].
    destruct (push 1 have cap) as [c cap'] eqn:P. destruct (push_spec _ _ _ L _ _ P) as (S1 & L' & M).
    specialize (IH (N.pred len) (have + 1) cap' L'). unfold cbind.
    assert (bsize (x :: r) = bsize r + 1) as SZ by (unfold bsize; cbn [length]; lia). rewrite SZ.
    destruct (c_read_all (N.pred len) (have + 1) cap' r) as [c' [[l a]|er|p]]; unfold spend, free, plus; cbn [fst snd steps memory].
    + destruct IH as (m & E1 & E0 & E2 & E3). exists (m + 1). split; [lia|]. split; [lia|]. split; [lia|]. specialize (M (memory c') m). lia.
    + destruct IH as (E2 & E3). split; [lia|]. specialize (M (memory c') (bsize r)). lia.
    + destruct IH as (E2 & E3). split; [lia|]. specialize (M (memory c') (bsize r)). lia.
Qed.
Lemma rawend_bound : forall b len have cap, have <= cap ->
  match c_rawend_loop len have cap b with
  | (c, (_, r)) => exists m, bsize b = bsize r + m /\ steps c <= 3 * m + 2 /\ memory c + 2 * cap <= N.max (2 * cap) (4 * (have + m) + 8)
  end.
Proof.
  induction b as [|x r IH]; intros len have cap L; cbn [c_rawend_loop].
  - destruct (len =? 0); exists 0; cbn [steps memory]; lia.
  - destruct (len =? 0); [exists 0; cbn [steps memory]; lia|].
    destruct (push 1 have cap) as [c cap'] eqn:P. destruct (push_spec _ _ _ L _ _ P) as (S1 & L' & M).
    specialize (IH (N.pred len) (have + 1) cap' L').
    assert (bsize (x :: r) = bsize r + 1) as SZ by (unfold bsize; cbn [length]; lia). rewrite SZ.
    destruct (c_rawend_loop (N.pred len) (have + 1) cap' r) as [c' [l rest]]. unfold plus; cbn [steps memory].
    destruct IH as (m & E1 & E2 & E3). exists (m + 1). split; [lia|]. split; [lia|]. specialize (M (memory c') m). lia.
Qed.

Lemma bounded_read_many K F e n : 3 * wr + 4 * wm <= K ->
  bounded asize K F (2 * wr + 8 * wm) (fun a => c_read_many e n (acc_len a) 0 0 (acc_rest a)).
Proof.
  intros HK [len b]. cbn [acc_len acc_rest]. assert (0 <= 0) as L by lia. pose proof (read_many_bound e b n len 0 0 L) as H.
  replace K with (3 * wr + 4 * wm + (K - (3 * wr + 4 * wm))) by lia. set (k := K - _). unfold asize in *. cbn [acc_rest].
  destruct (c_read_many e n len 0 0 b) as [c [[l [n' r]]|er|p]]; cbn [acc_rest] in *.
  - destruct H as (m & E1 & E2 & E3). rewrite E1. split; [lia|].
    assert (mu c <= wr * (3 * m) + wm * (4 * m + 8)) by (apply mu_le; lia). lia.
  - assert (mu c <= wr * (3 * bsize b + 2) + wm * (4 * bsize b + 8)) by (apply mu_le; lia). lia.
  - assert (mu c <= wr * (3 * bsize b + 2) + wm * (4 * bsize b + 8)) by (apply mu_le; lia). lia.
Qed.
Lemma bounded_rawend K F : 3 * wr + 4 * wm <= K -> bounded bsize K F (2 * wr + 8 * wm) c_rawend.
Proof.
  intros HK. apply bounded_tuple. intros [len b]. cbn [acc_len acc_rest]. assert (0 <= 0) as L by lia. pose proof (rawend_bound b len 0 0 L) as H.
  replace K with (3 * wr + 4 * wm + (K - (3 * wr + 4 * wm))) by lia. set (k := K - _). unfold asize in *. cbn [acc_rest].
  destruct (c_rawend_loop len 0 0 b) as [c [l r]]. cbn [acc_rest].
  destruct H as (m & E1 & E2 & E3). rewrite E1. split; [lia|].
  assert (mu c <= wr * (3 * m + 2) + wm * (4 * m + 8)) by (apply mu_le; lia). lia.
Qed.
Lemma bounded_vec_u8 K F : 3 * wr + 5 * wm <= K -> wm * 4096 <= F -> bounded bsize K F (3 * wr + 8 * wm) c_vec_u8.
Proof.
  intros HK HF. unfold c_vec_u8.
  replace (3 * wr + 8 * wm) with (wr + (2 * wr + 8 * wm)) by lia. apply bounded_bind; [apply bounded_prim, rest_uint|]. intros len b.
  replace K with (3 * wr + 5 * wm + (K - (3 * wr + 5 * wm))) by lia. set (k := K - _).
  unfold c_tuple, cbind, spend, free. cbn [acc_len acc_rest].
  assert (0 <= cautious len) as L by lia. pose proof (read_all_bound b len 0 _ L) as H.
  assert (cautious len <= len /\ cautious len <= 4096) as [C1 C2] by (unfold cautious; lia).
  destruct (c_read_all len 0 (cautious len) b) as [c [[l [n' r]]|er|p]]; unfold plus; cbn [fst snd steps memory acc_rest].
  - unfold asize in H. cbn [acc_rest] in H. destruct H as (m & E1 & E0 & E2 & E3). rewrite E1. split; [lia|].
    match goal with |- mu ?x + _ <= _ => assert (mu x <= wr * (3 * m + 1) + wm * (5 * m + 8)) by (apply mu_le; cbn [steps memory]; lia) end. lia.
  - match goal with |- mu ?x <= _ => assert (mu x <= wr * (3 * bsize b + 2) + wm * (4 * bsize b + 8 + 4096)) by (apply mu_le; cbn [steps memory]; lia) end. lia.
  - match goal with |- mu ?x <= _ => assert (mu x <= wr * (3 * bsize b + 2) + wm * (4 * bsize b + 8 + 4096)) by (apply mu_le; cbn [steps memory]; lia) end. lia.
Qed.

Lemma bounded_more {St A} (size : St -> N) K F B B' (f : St -> costly (A * St)) :
  bounded size K F B f -> B <= B' -> bounded size K F B' f.
Proof. intros H L. eapply bounded_weaken; [exact H|lia..]. Qed.

(** *** The library's types *)
Ltac bd :=
  repeat first
    [ apply bounded_next_required
    | apply bounded_ret
    | apply bounded_prim; first [apply rest_u8 | apply rest_uint | apply (rest_of TBits)]
    | eapply bounded_bind; [|intros ?] ].

Lemma bounded_octets K F : bounded bsize K F (8 * wr) c_octets4.
Proof. apply bounded_tuple. cbv zeta. eapply bounded_more; [bd|lia..]. Qed.
Lemma bounded_address K F : bounded bsize K F (11 * wr) c_address.
Proof.
  apply bounded_tuple. cbv zeta. eapply bounded_more.
  - eapply bounded_bind; [apply bounded_next_required, bounded_octets|]. intros [[[x0 x1] x2] x3]. bd.
  - lia.
Qed.
Lemma bounded_varlen16 K F : 3 * wr + 4 * wm <= K -> bounded bsize K F (4 * wr + 8 * wm) c_varlen16.
Proof.
  intros HK. apply bounded_tuple. cbv zeta. eapply bounded_more; [bd; now apply bounded_read_many|lia..].
Qed.
Lemma bounded_varlen32 K F : 3 * wr + 4 * wm <= K -> bounded bsize K F (4 * wr + 8 * wm) c_varlen32.
Proof.
  intros HK. apply bounded_tuple. cbv zeta. eapply bounded_more; [bd; now apply bounded_read_many|lia..].
Qed.
Lemma bounded_varlen64 K F : 3 * wr + 5 * wm <= K -> wm * 4096 <= F -> bounded bsize K F (3 * wr + 8 * wm) c_varlen64.
Proof. intros HK HF. apply bounded_map. now apply bounded_vec_u8. Qed.
Lemma bounded_nested K F : 3 * wr + 4 * wm <= K -> bounded bsize K F (4 * wr + 8 * wm) c_nested.
Proof. intros HK. apply (bounded_map _ _ _ _ _ (fun v => NestedPacket (Packet (vl16 v)))). now apply bounded_varlen16. Qed.
Lemma bounded_time K F : bounded bsize K F (2 * wr) c_time.
Proof. apply bounded_tuple. eapply bounded_more; [bd|lia..]. Qed.
Lemma bounded_puncture K F : bounded bsize K F (26 * wr) c_puncture.
Proof. apply bounded_tuple. cbv zeta. eapply bounded_more; [bd; apply bounded_address|lia..]. Qed.
Lemma bounded_puncture_request K F : bounded bsize K F (26 * wr) c_puncture_request.
Proof. apply bounded_tuple. cbv zeta. eapply bounded_more; [bd; apply bounded_address|lia..]. Qed.
Lemma bounded_introduction_request K F : 3 * wr + 4 * wm <= K -> bounded bsize K F (43 * wr + 8 * wm) c_introduction_request.
Proof.
  intros HK. apply bounded_tuple. cbv zeta. eapply bounded_more; [bd; first [apply bounded_address|now apply bounded_rawend]|lia..].
Qed.
Lemma bounded_introduction_response K F : 3 * wr + 4 * wm <= K -> bounded bsize K F (67 * wr + 8 * wm) c_introduction_response.
Proof.
  intros HK. apply bounded_tuple. cbv zeta. eapply bounded_more; [bd; first [apply bounded_address|now apply bounded_rawend]|lia..].
Qed.
Lemma bounded_bin_member K F : 3 * wr + 4 * wm <= K -> bounded bsize K F (78 * wr + 8 * wm) c_bin_member.
Proof.
  intros HK. unfold c_bin_member. replace (78 * wr + 8 * wm) with (4 * wr + 8 * wm + 74 * wr) by lia.
  apply bounded_bind; [now apply bounded_varlen16|]. intros v r. cbv zeta.
  destruct (or_panic (slice (vl16 v) 0 10)) as [prefix| |]; unfold cbind, free, spend, plus, mu; cbn [fst snd steps memory]; try lia.
  destruct (negb _); cbn [fst snd steps memory]; [lia|].
  destruct (or_panic (slice (vl16 v) 10 42)) as [s1| |]; cbn [fst snd steps memory]; try lia.
  destruct (ok_or (layout_verified 32 s1) _) as [k1| |]; cbn [fst snd steps memory]; try lia.
  destruct (or_panic (slice (vl16 v) 42 74)) as [s2| |]; cbn [fst snd steps memory]; try lia.
  destruct (ok_or (layout_verified 32 s2) _) as [k2| |]; cbn [fst snd steps memory]; lia.
Qed.
Lemma bounded_fill K F e : forall n, bounded asize K F (2 * wr * N.of_nat n) (c_fill_u8 e n).
Proof.
  induction n as [|n IH]; cbn [c_fill_u8]; [eapply bounded_more; [apply bounded_ret|lia..]|].
  eapply bounded_more; [eapply bounded_bind; [apply bounded_next_required, bounded_prim, rest_u8|]; intros x; apply bounded_map, IH|lia..].
Qed.
Lemma bounded_header K F : bounded bsize K F (70 * wr + 28 * wm) c_header.
Proof.
  apply bounded_tuple. cbv zeta. change (push 1 0 0) with (Cost 1 8, 8). cbv iota. change (push 1 1 8) with (Cost 1 0, 8). cbv iota. eapply bounded_more.
  - eapply bounded_bind; [apply bounded_next_required, bounded_prim, rest_u8|]. intros v0. apply (bounded_spend _ _ _ (67 * wr + 20 * wm)).
    eapply bounded_more.
    + eapply bounded_bind; [apply bounded_next_required, bounded_prim, rest_u8|]. intros v1. apply (bounded_spend _ _ _ (64 * wr + 20 * wm)).
      eapply bounded_more; [apply (bounded_spend _ _ _ (62 * wr + 20 * wm))|unfold mu; cbn [steps memory]; lia].
      destruct (bytes_eqb _ _); [|eapply bounded_more; [apply bounded_err|lia]].
      eapply bounded_more; [eapply bounded_bind; [apply bounded_fill|]; intros mid; eapply bounded_bind; [apply bounded_next_required, bounded_prim, rest_u8|];
          intros mt; apply bounded_spend, bounded_ret|unfold mu; cbn [steps memory]; lia].
    + unfold mu; cbn [steps memory]; lia.
  - unfold mu. cbn [steps memory]. lia.
Qed.

(** *** Strings, options, vectors *)
Lemma bounded_string K F : 2 * wr + wm <= K -> bounded bsize K F wr c_string.
Proof.
  intros HK. unfold c_string. replace wr with (wr + 0) at 1 by lia. apply bounded_bind; [apply bounded_prim, rest_uint|]. intros n b.
  destruct (N.ltb_spec (N.of_nat (length b)) n) as [L|L]; [unfold free, mu; cbn [steps memory]; lia|].
  replace K with (2 * wr + wm + (K - (2 * wr + wm))) by lia. set (k := K - _). unfold spend, free, plus, mu. cbn [fst snd steps memory].
  assert (bsize b = bsize (skipn (N.to_nat n) b) + n) as E by (unfold bsize; rewrite skipn_length; lia). rewrite E.
  destruct (utf8_valid _); lia.
Qed.
Lemma bounded_option {A} K F B (f : list byte -> costly (A * list byte)) : bounded bsize K F B f -> bounded bsize K F (wr + B) (c_option f).
Proof.
  intros H. unfold c_option. apply bounded_bind; [apply bounded_prim, rest_u8|]. intros x.
  destruct x; try (eapply bounded_more; [apply bounded_err|lia..]).
  - eapply bounded_more; [apply bounded_ret|lia..].
  - now apply bounded_map.
Qed.

Lemma elements_bound {A} (s : N) K F B (f : list byte -> costly (A * list byte)) :
  bounded bsize K F B f -> (forall b c v r, f b = (c, Ok (v, r)) -> (length r < length b)%nat) ->
  forall n have cap b, have <= cap ->
  match c_elements s f n have cap b with
  | (c, Ok (_, r)) => exists m, bsize b = bsize r + m /\ N.of_nat n <= m /\
      mu c + wm * (2 * (s * cap)) <= (K + B + 2 * wr) * m + wr + wm * N.max (2 * (s * cap)) (4 * (s * (have + m)) + 8 * s)
  | (c, _) => mu c + wm * (2 * (s * cap)) <= (K + B + 2 * wr) * bsize b + wr + B + F + wm * N.max (2 * (s * cap)) (4 * (s * (have + bsize b)) + 8 * s)
  end.
Proof.
  intros H G. induction n as [|n IH]; intros have cap b L; cbn [c_elements].
  - unfold spend, free, plus, mu. cbn [fst snd steps memory]. exists 0. split; [lia|]. split; [lia|].
    assert (2 * (s * cap) <= N.max (2 * (s * cap)) (4 * (s * (have + 0)) + 8 * s)) as X by lia.
    pose proof (N.mul_le_mono_l _ _ wm X). lia.
  - specialize (H b). unfold cbind at 1. destruct (f b) as [c [[x r]|e|p]] eqn:EF; cbn [fst snd].
    + specialize (G _ _ _ _ EF). destruct H as [_ H].
      destruct (push s have cap) as [c0 cap'] eqn:P. destruct (push_spec _ _ _ L _ _ P) as (S1 & L' & M).
      specialize (IH (have + 1) cap' r L'). unfold cbind.
      assert (exists q, bsize b = bsize r + q /\ 1 <= q) as (q & Eq & Q1) by (exists (bsize b - bsize r); unfold bsize; lia).
      rewrite Eq in *. assert (mu c <= K * q + B) as HC by lia. clear H.
      assert (mu c0 = wr + wm * memory c0) as HP by (unfold mu; rewrite S1; lia).
      assert (B * 1 <= B * q /\ wr * 1 <= wr * q) as [Y1 Y2] by (split; apply N.mul_le_mono_l; lia).
      (* the claim for the rest, with the memory of the push *)
      assert (forall R m m', R + wm * (2 * (s * cap')) <= wm * N.max (2 * (s * cap')) (4 * (s * (have + 1 + m)) + 8 * s) -> 1 + m <= m' ->
                wm * memory c0 + R + wm * (2 * (s * cap)) <= wm * N.max (2 * (s * cap)) (4 * (s * (have + m')) + 8 * s)) as MM.
      { intros R m m' HR Hm.
        assert (memory c0 + (N.max (2 * (s * cap')) (4 * (s * (have + 1 + m)) + 8 * s) - 2 * (s * cap')) + 2 * (s * cap)
                <= N.max (2 * (s * cap)) (4 * (s * (have + 1 + m)) + 8 * s)) as X by (apply M; lia).
        assert (s * (have + 1 + m) <= s * (have + m')) as X2 by (apply N.mul_le_mono_l; lia).
        set (u := N.max (2 * (s * cap')) (4 * (s * (have + 1 + m)) + 8 * s)) in *.
        assert (exists d, u = 2 * (s * cap') + d) as (d & Ed) by (exists (u - 2 * (s * cap')); lia).
        rewrite Ed in HR, X. replace (2 * (s * cap') + d - 2 * (s * cap')) with d in X by lia.
        assert (R <= wm * d) as X3 by lia.
        assert (memory c0 + d + 2 * (s * cap) <= N.max (2 * (s * cap)) (4 * (s * (have + m')) + 8 * s)) as X4 by lia.
        pose proof (N.mul_le_mono_l _ _ wm X4). lia. }
      destruct (c_elements s f n (have + 1) cap' r) as [c' [[xs r']|er|p]]; unfold spend, free; cbn [fst snd]; rewrite !mu_plus.
      * destruct IH as (m & Em & Nm & I). exists (q + m). split; [lia|]. split; [lia|].
        assert (wm * (2 * (s * cap')) <= wm * N.max (2 * (s * cap')) (4 * (s * (have + 1 + m)) + 8 * s)) as W by (apply N.mul_le_mono_l; lia).
        specialize (MM (mu c' - ((K + B + 2 * wr) * m + wr)) m (q + m)).
        set (U := wm * N.max (2 * (s * cap')) (4 * (s * (have + 1 + m)) + 8 * s)) in *.
        set (V := wm * N.max (2 * (s * cap)) (4 * (s * (have + (q + m))) + 8 * s)) in *. clearbody U V.
        rewrite HP. replace (mu (Cost 1 0)) with wr by (unfold mu; cbn [steps memory]; lia). replace (mu (Cost 0 0)) with 0 by (unfold mu; cbn [steps memory]; lia).
        assert (mu c' - ((K + B + 2 * wr) * m + wr) + wm * (2 * (s * cap')) <= U) as Z by lia. specialize (MM Z ltac:(lia)). clear M Z. lia.
      * assert (wm * (2 * (s * cap')) <= wm * N.max (2 * (s * cap')) (4 * (s * (have + 1 + bsize r)) + 8 * s)) as W by (apply N.mul_le_mono_l; lia).
        specialize (MM (mu c' - ((K + B + 2 * wr) * bsize r + wr + B + F)) (bsize r) (bsize r + q)).
        set (U := wm * N.max (2 * (s * cap')) (4 * (s * (have + 1 + bsize r)) + 8 * s)) in *.
        set (V := wm * N.max (2 * (s * cap)) (4 * (s * (have + (bsize r + q))) + 8 * s)) in *. clearbody U V.
        rewrite HP. replace (mu (Cost 1 0)) with wr by (unfold mu; cbn [steps memory]; lia). replace (mu (Cost 0 0)) with 0 by (unfold mu; cbn [steps memory]; lia).
        assert (mu c' - ((K + B + 2 * wr) * bsize r + wr + B + F) + wm * (2 * (s * cap')) <= U) as Z by lia. specialize (MM Z ltac:(lia)). clear M Z. lia.
      * assert (wm * (2 * (s * cap')) <= wm * N.max (2 * (s * cap')) (4 * (s * (have + 1 + bsize r)) + 8 * s)) as W by (apply N.mul_le_mono_l; lia).
        specialize (MM (mu c' - ((K + B + 2 * wr) * bsize r + wr + B + F)) (bsize r) (bsize r + q)).
        set (U := wm * N.max (2 * (s * cap')) (4 * (s * (have + 1 + bsize r)) + 8 * s)) in *.
        set (V := wm * N.max (2 * (s * cap)) (4 * (s * (have + (bsize r + q))) + 8 * s)) in *. clearbody U V.
        rewrite HP. replace (mu (Cost 1 0)) with wr by (unfold mu; cbn [steps memory]; lia). replace (mu (Cost 0 0)) with 0 by (unfold mu; cbn [steps memory]; lia).
        assert (mu c' - ((K + B + 2 * wr) * bsize r + wr + B + F) + wm * (2 * (s * cap')) <= U) as Z by lia. specialize (MM Z ltac:(lia)). clear M Z. lia.
    + unfold spend, plus. cbn [fst snd].
      assert (2 * (s * cap) <= N.max (2 * (s * cap)) (4 * (s * (have + bsize b)) + 8 * s)) as X by lia.
      pose proof (N.mul_le_mono_l _ _ wm X). unfold mu in *. cbn [steps memory] in *. lia.
    + unfold spend, plus. cbn [fst snd].
      assert (2 * (s * cap) <= N.max (2 * (s * cap)) (4 * (s * (have + bsize b)) + 8 * s)) as X by lia.
      pose proof (N.mul_le_mono_l _ _ wm X). unfold mu in *. cbn [steps memory] in *. lia.
Qed.
Lemma bounded_vec {A} (s : N) K F B (f : list byte -> costly (A * list byte)) :
  bounded bsize K F B f -> (forall b c v r, f b = (c, Ok (v, r)) -> (length r < length b)%nat) ->
  bounded bsize (K + B + 2 * wr + 5 * (s * wm)) (F + B + 4096 * (s * wm)) (2 * wr + 8 * (s * wm)) (c_vec s f).
Proof.
  intros H G. unfold c_vec. replace (2 * wr + 8 * (s * wm)) with (wr + (wr + 8 * (s * wm))) by lia.
  apply bounded_bind; [apply bounded_prim, rest_uint|]. intros n b.
  assert (0 <= cautious n) as L by lia. pose proof (elements_bound s K F B f H G (N.to_nat n) 0 (cautious n) b L) as E.
  assert (cautious n <= n /\ cautious n <= 4096) as [C1 C2] by (unfold cautious; lia).
  unfold spend. destruct (c_elements s f (N.to_nat n) 0 (cautious n) b) as [c [[l r]|er|p]]; cbn [fst snd]; rewrite mu_plus; unfold mu at 1; cbn [steps memory].
  - destruct E as (m & -> & Nm & E). split; [lia|].
    assert (s * cautious n <= s * m) as X by (apply N.mul_le_mono_l; lia).
    assert (N.max (2 * (s * cautious n)) (4 * (s * (0 + m)) + 8 * s) <= 4 * (s * m) + 8 * s) as X2 by lia.
    pose proof (N.mul_le_mono_l _ _ wm X). pose proof (N.mul_le_mono_l _ _ wm X2). lia.
  - assert (s * cautious n <= s * 4096) as X by (apply N.mul_le_mono_l; lia).
    assert (exists d, N.max (2 * (s * cautious n)) (4 * (s * (0 + bsize b)) + 8 * s) = 2 * (s * cautious n) + d /\ d <= 4 * (s * bsize b) + 8 * s) as (d & Ed & Hd).
    { exists (N.max (2 * (s * cautious n)) (4 * (s * (0 + bsize b)) + 8 * s) - 2 * (s * cautious n)). lia. }
    rewrite Ed in E. pose proof (N.mul_le_mono_l _ _ wm X). pose proof (N.mul_le_mono_l _ _ wm Hd). lia.
  - assert (s * cautious n <= s * 4096) as X by (apply N.mul_le_mono_l; lia).
    assert (exists d, N.max (2 * (s * cautious n)) (4 * (s * (0 + bsize b)) + 8 * s) = 2 * (s * cautious n) + d /\ d <= 4 * (s * bsize b) + 8 * s) as (d & Ed & Hd).
    { exists (N.max (2 * (s * cautious n)) (4 * (s * (0 + bsize b)) + 8 * s) - 2 * (s * cautious n)). lia. }
    rewrite Ed in E. pose proof (N.mul_le_mono_l _ _ wm X). pose proof (N.mul_le_mono_l _ _ wm Hd). lia.
Qed.
End Weights.

(** ** The size pass *)
Open Scope nat_scope.
(** calls of the serializer that write nothing *)
Definition silent (e : ev) : nat := match e with EvTuple _ | EvStruct _ => 1 | _ => 0 end.
Definition silents (l : list ev) : nat := fold_right (fun e n => silent e + n) 0 l.
Lemma silents_app a b : silents (a ++ b) = silents a + silents b.
Proof. induction a as [|e a IH]; cbn [app silents fold_right] in *; [reflexivity|]. unfold silents in *. lia. Qed.
Lemma silents_cons e l : silents (e :: l) = silent e + silents l.
Proof. reflexivity. Qed.
Lemma silents_u8s l : silents (map EvU8 l) = 0.
Proof. induction l as [|x l IH]; [reflexivity|exact IH]. Qed.
Lemma size_u8s l : bincode_size (map EvU8 l) = length l.
Proof. rewrite bincode_size_write, bincode_write_u8s. reflexivity. Qed.
Lemma encode_utf8_nonempty c : 1 <= length (encode_utf8 c).
Proof.
  unfold encode_utf8. rewrite map_length.
  repeat match goal with |- context [if ?c then _ else _] => destruct c end; cbn [length]; lia.
Qed.
Lemma calls_bound l : length l <= bincode_size l + silents l.
Proof.
  induction l as [|e l IH]; [reflexivity|]. cbn [length bincode_size silents fold_right]. unfold bincode_size, silents in IH.
  assert (1 <= size_ev e + silent e); [|lia].
  destruct e; cbn [size_ev silent]; try lia. pose proof (encode_utf8_nonempty c). lia.
Qed.

Lemma ser_seq_cons x l evs : ser_seq (x :: l) = Ok evs -> exists a b, x = Ok a /\ ser_seq l = Ok b /\ evs = a ++ b.
Proof.
  cbn [ser_seq]. destruct x as [a| |]; cbn [bind]; try discriminate. destruct (ser_seq l) as [b| |]; cbn [bind]; try discriminate.
  intros [= <-]. now exists a, b.
Qed.
Ltac sq H := let a := fresh "a" in let b := fresh "b" in let H1 := fresh in let H2 := fresh in
  apply ser_seq_cons in H as (a & b & H1 & H2 & ->); try sq H2.

Lemma silents_address v evs : ser_address v = Ok evs -> silents evs = 2.
Proof. destruct v; cbn [ser_address]; [|discriminate]. now intros [= <-]. Qed.
Lemma silents_rawend v evs : ser_rawend v = Ok evs -> silents evs = 1.
Proof. unfold ser_rawend. intros [= <-]. rewrite !silents_cons. cbn [silent]. now rewrite (silents_u8s (raw_bytes v)). Qed.
Lemma silents_varlen16 v evs : ser_varlen16 v = Ok evs -> silents evs = 1.
Proof.
  unfold ser_varlen16. destruct (_ <? _)%N; [discriminate|]. intros [= <-]. rewrite !silents_cons. cbn [silent]. now rewrite (silents_u8s (vl16 v)).
Qed.
Lemma silents_varlen32 v evs : ser_varlen32 v = Ok evs -> silents evs = 1.
Proof.
  unfold ser_varlen32. destruct (_ <? _)%N; [discriminate|]. intros [= <-]. rewrite !silents_cons. cbn [silent]. now rewrite (silents_u8s (vl32 v)).
Qed.

Ltac fin :=
  repeat match goal with
  | H : ser_address _ = Ok _ |- _ => apply silents_address in H
  | H : ser_varlen16 _ = Ok _ |- _ => apply silents_varlen16 in H
  | H : ser_rawend _ = Ok _ |- _ => apply silents_rawend in H
  | H : ser_bits _ = Ok _ |- _ => injection H as <-
  | H : Ok _ = Ok _ |- _ => injection H as <-
  | H : ser_seq [] = Ok _ |- _ => injection H as <-
  end; rewrite ?silents_app, ?silents_cons; cbn [silent silents fold_right]; lia.
(** the types that are not composed of others *)
Definition atomic (t : ty) : bool :=
  match t with TStruct _ | TOption _ | TVec _ | TEnum _ => false | _ => true end.
Lemma silents_atomic t v evs : atomic t = true -> ser t v = Ok evs -> silents evs <= 13.
Proof.
  destruct t; cbn [atomic ser]; intros A E; try discriminate A; try (injection E as <-; cbn; lia).
  - unfold ser_vec_u8 in E. injection E as <-. rewrite !silents_cons. cbn [silent]. rewrite (silents_u8s v). lia.
  - rewrite (silents_address _ _ E). lia.
  - rewrite (silents_varlen16 _ _ E). lia.
  - rewrite (silents_varlen32 _ _ E). lia.
  - unfold ser_varlen64, ser_vec_u8 in E. injection E as <-. rewrite !silents_cons. cbn [silent]. rewrite (silents_u8s (vl64 v)). lia.
  - rewrite (silents_rawend _ _ E). lia.
  - unfold ser_nested in E. sq E. fin.
  - unfold ser_puncture in E. sq E. fin.
  - unfold ser_puncture_request in E. sq E. fin.
  - unfold ser_introduction_request in E. cbv zeta in E. sq E. fin.
  - unfold ser_introduction_response in E. cbv zeta in E. sq E. fin.
  - unfold ser_bin_member in E. cbv zeta in E. injection E as <-. rewrite !silents_cons, !silents_app, !silents_u8s. cbn [silent]. lia.
Qed.

(** a vector's elements, each of at least one byte *)
Lemma ser_elements t (P : list ev -> nat) (c : nat) (Papp : forall a b, P (a ++ b) = P a + P b) (P0 : P [] = 0) :
  forall (l : list (tval t)) evs, (forall v e, In v l -> ser t v = Ok e -> P e <= c * bincode_size e) ->
  ser_seq (map (ser t) l) = Ok evs -> P evs <= c * bincode_size evs.
Proof.
  induction l as [|v l IH]; intros evs H E.
  - cbn in E. injection E as <-. rewrite P0. lia.
  - cbn [map] in E. apply ser_seq_cons in E as (a & b & E1 & E2 & ->). rewrite Papp, bincode_size_app.
    assert (P a <= c * bincode_size a) by (apply (H v); [now left|assumption]).
    assert (P b <= c * bincode_size b) by (apply IH; [|assumption]; intros v' e Hv; apply H; now right). lia.
Qed.
Lemma written_size t v evs : in_range t v -> encodable t v -> ser t v = Ok evs -> bincode_size evs = length (layout t v).
Proof.
  intros R E S. destruct (f_ser t (facts_of t) v R) as [[_ (evs' & S' & W)]|[N _]]; [|contradiction].
  rewrite S in S'. injection S' as <-. now rewrite bincode_size_write, W.
Qed.

Lemma silents_linear :
  (forall t, no_empty_elements t = true -> exists Z, forall v evs, in_range t v -> encodable t v -> ser t v = Ok evs -> silents evs <= Z * (bincode_size evs + 1)) /\
  (forall fs, none_has_empty_elements fs = true ->
     (exists Z, forall v evs, in_ranges fs v -> encodables fs v -> sers fs v = Ok evs -> silents evs <= Z * (bincode_size evs + 1)) /\
     (exists Z, forall i v evs, variant_in_range fs v -> variant_encodable fs v -> seralts fs i v = Ok evs -> silents evs <= Z * (bincode_size evs + 1))).
Proof.
  apply ty_tys_ind; try (intros _; exists 13; intros v evs _ _ E; apply silents_atomic in E; [|reflexivity]; lia).
  - intros fs IH N. destruct (IH N) as [[Z H] _]. exists (Z + 1). intros v evs R E S. cbn [ser] in S.
    destruct (sers fs v) as [l| |] eqn:L; cbn [bind] in S; try discriminate. injection S as <-. specialize (H v l R E L).
    rewrite silents_cons. cbn [silent bincode_size fold_right size_ev]. fold (bincode_size l). lia.
  - intros t IH N. destruct (IH N) as [Z H]. exists (Z + 1). intros [v|] evs R E S; cbn [ser] in S.
    + destruct (ser t v) as [l| |] eqn:L; cbn [bind] in S; try discriminate. injection S as <-. specialize (H v l R E L).
      rewrite silents_cons. cbn [silent bincode_size fold_right size_ev]. fold (bincode_size l). lia.
    + injection S as <-. cbn. lia.
  - intros t IH N. cbn [no_empty_elements] in N. apply andb_true_iff in N as [N1 N2]. apply Nat.ltb_lt in N1. destruct (IH N2) as [Z H]. exists (2 * Z).
    intros v evs [_ R] E S. cbn [ser] in S. destruct (ser_seq (map (ser t) v)) as [l| |] eqn:L; cbn [bind] in S; try discriminate. injection S as <-.
    rewrite silents_cons. cbn [silent bincode_size fold_right size_ev]. fold (bincode_size l).
    assert (silents l <= (2 * Z) * bincode_size l); [|lia].
    apply (ser_elements t silents (2 * Z)) with (l := v); [apply silents_app|reflexivity| |exact L]. intros x e Hx Sx.
    cbn [encodable] in E. rewrite Forall_forall in R, E. specialize (H x e (R x Hx) (E x Hx) Sx).
    pose proof (written_size t x e (R x Hx) (E x Hx) Sx). pose proof (f_min t (facts_of t) x (R x Hx) (E x Hx)). nia.
  - intros vs IH N. destruct (IH N) as [_ [Z H]]. exists Z. intros v evs [_ R] E S. exact (H 0%N v evs R E S).
  - intros _. split; exists 0.
    + intros v evs _ _ S. cbn in S. injection S as <-. cbn. lia.
    + intros i [].
  - intros t IH fs IHs N. cbn [none_has_empty_elements] in N. apply andb_true_iff in N as [N1 N2].
    destruct (IH N1) as [Z H], (IHs N2) as [[Zs Hs] [Za Ha]]. split.
    + exists (Z + Zs). intros [v vs] evs [R1 R2] [E1 E2] S. cbn [sers fst snd] in *.
      destruct (ser t v) as [a| |] eqn:A; cbn [bind] in S; try discriminate. destruct (sers fs vs) as [b| |] eqn:B; cbn [bind] in S; try discriminate.
      injection S as <-. specialize (H v a R1 E1 A). specialize (Hs vs b R2 E2 B). rewrite silents_app, bincode_size_app. nia.
    + exists (Z + Za). intros i [v|y] evs R E S; cbn [seralts variant_in_range variant_encodable] in *.
      * destruct (ser t v) as [a| |] eqn:A; cbn [bind] in S; try discriminate. injection S as <-. specialize (H v a R E A).
        rewrite silents_cons. cbn [silent bincode_size fold_right size_ev]. fold (bincode_size a). nia.
      * specialize (Ha _ y evs R E S). nia.
Qed.

Lemma u16_bytes_length n : length (u16_bytes n) = 2.
Proof. reflexivity. Qed.
Lemma u32_bytes_length n : length (u32_bytes n) = 4.
Proof. reflexivity. Qed.
Lemma u64_bytes_length n : length (u64_bytes n) = 8.
Proof. reflexivity. Qed.
(** what a read looks at is at most 863 times what it takes: an authentication payload of up to 65537 bytes counts as 76 *)
Lemma bin_member_rest b v r : de_bin_member b = Ok (v, r) -> exists w, de_varlen16 b = Ok (w, r).
Proof.
  unfold de_bin_member. destruct (de_varlen16 b) as [[w r']| |]; cbn [bind]; try discriminate. cbv zeta.
  destruct (or_panic (slice (vl16 w) 0 10)); cbn [bind]; try discriminate. destruct (negb _); [discriminate|].
  destruct (or_panic (slice (vl16 w) 10 42)) as [s1| |]; cbn [bind]; try discriminate.
  destruct (ok_or (layout_verified 32 s1) _); cbn [bind]; try discriminate.
  destruct (or_panic (slice (vl16 w) 42 74)) as [s2| |]; cbn [bind]; try discriminate.
  destruct (ok_or (layout_verified 32 s2) _); cbn [bind]; try discriminate.
  intros [= <- <-]. now exists w.
Qed.
Lemma swollen_equal t b v r : has_auth t = false -> de t b = Ok (v, r) -> length b = length r + length (layout t v).
Proof.
  intros A E. destruct (f_ok t (facts_of t) _ _ _ E) as (c & -> & _ & _ & _ & _ & L & _). rewrite (L A), app_length. lia.
Qed.
Lemma swollen :
  (forall t b v r, de t b = Ok (v, r) -> length b <= length r + 863 * length (layout t v)) /\
  (forall fs, (forall b v r, des_plain fs b = Ok (v, r) -> length b <= length r + 863 * length (layouts fs v)) /\
              (forall i b v r, dealts fs i b = Ok (v, r) -> length b <= length r + 863 * length (variant_layout fs v))).
Proof.
  apply ty_tys_ind; try (intros b v r E; apply swollen_equal in E; [lia|reflexivity]).
  - intros b v r E. pose proof (f_ok TBinMember (facts_of TBinMember) _ _ _ E) as (_ & _ & R & _).
    cbn [de] in E. apply bin_member_rest in E as (w & E).
    destruct (f_ok TVarLen16 (facts_of TVarLen16) _ _ _ E) as (c & -> & _ & EN & _ & _ & L & _). cbn [layout encodable] in *.
    rewrite auth_layout_length by exact R. rewrite app_length, <- (L eq_refl), app_length. unfold len in EN. rewrite u16_bytes_length. lia.
  - intros fs [H _] b v r E. rewrite de_struct in E. now apply H.
  - intros t H b v r E. cbn [de] in E. unfold de_option in E. destruct b as [|x b]; [discriminate|]. cbn [de_u8 bind] in E.
    destruct x; try discriminate; [injection E as <- <-; cbn [layout length]; lia|].
    destruct (de t b) as [[x b']| |] eqn:D; cbn [bind] in E; try discriminate. injection E as <- <-. cbn [layout length]. specialize (H _ _ _ D). lia.
  - intros t H b v r E. cbn [de] in E. unfold de_vec in E. destruct (de_u64 b) as [[n b']| |] eqn:D; cbn [bind] in E; try discriminate.
    apply (swollen_equal TU64) in D; [|reflexivity]. cbn [layout] in *. rewrite app_length.
    assert (length b' <= length r + 863 * length (flat_map (layout t) v)); [|rewrite u64_bytes_length in *; lia].
    clear D. revert b' v r E. induction (N.to_nat n) as [|k IH]; intros b' v r E; cbn [seq_elements] in E; [injection E as <- <-; cbn; lia|].
    destruct (de t b') as [[x b1]| |] eqn:D; cbn [bind] in E; try discriminate.
    destruct (seq_elements (de t) k b1) as [[xs b2]| |] eqn:D2; cbn [bind] in E; try discriminate. injection E as <- <-.
    specialize (H _ _ _ D). specialize (IH _ _ _ D2). cbn [flat_map]. rewrite app_length. lia.
  - intros vs [_ H] b v r E. cbn [de] in E. destruct (de_u32 b) as [[n b']| |] eqn:D; cbn [bind] in E; try discriminate.
    apply (swollen_equal TU32) in D; [|reflexivity]. specialize (H _ _ _ _ E). cbn [layout] in *. rewrite app_length, u32_bytes_length in *. lia.
  - split; [intros b v r [= <- <-]; cbn; lia|]. intros i b [].
  - intros t H fs [Hs Ha]. split.
    + intros b [x xs] r E. cbn [des_plain] in E. destruct (de t b) as [[x' b1]| |] eqn:D; cbn [bind] in E; try discriminate.
      destruct (des_plain fs b1) as [[xs' b2]| |] eqn:D2; cbn [bind] in E; try discriminate. injection E as <- <- <-.
      specialize (H _ _ _ D). specialize (Hs _ _ _ D2). cbn [layouts fst snd]. rewrite app_length. lia.
    + intros i b v r E. cbn [dealts] in E. destruct (i =? 0)%N.
      * destruct (de t b) as [[x' b1]| |] eqn:D; cbn [bind] in E; try discriminate. injection E as <- <-. exact (H _ _ _ D).
      * destruct (dealts fs (N.pred i) b) as [[x' b1]| |] eqn:D; cbn [bind] in E; try discriminate. injection E as <- <-. exact (Ha _ _ _ _ D).
Qed.

Lemma copies_le :
  (forall t v evs, ser t v = Ok evs -> (copies t v <= N.of_nat (bincode_size evs))%N) /\
  (forall fs, (forall v evs, sers fs v = Ok evs -> (copies_all fs v <= N.of_nat (bincode_size evs))%N) /\
              (forall i v evs, seralts fs i v = Ok evs -> (copies_alt fs v <= N.of_nat (bincode_size evs))%N)).
Proof.
  apply ty_tys_ind; try (intros v evs _; cbn [copies]; lia).
  - intros v evs E. cbn [copies ser] in *. unfold ser_nested in E. sq E.
    match goal with H : ser_varlen16 _ = Ok _ |- _ => unfold ser_varlen16 in H; cbn [vl16] in H end.
    destruct (_ <? _)%N; try discriminate. match goal with H : Ok (_ :: _ :: _) = Ok _ |- _ => injection H as <- end.
    rewrite !bincode_size_app. cbn [bincode_size fold_right size_ev]. fold (bincode_size (map EvU8 (packet_bytes (nested_inner v)))). rewrite size_u8s. lia.
  - intros fs [H _] v evs E. cbn [ser copies] in *. destruct (sers fs v) as [l| |] eqn:L; cbn [bind] in E; try discriminate. injection E as <-. exact (H v l L).
  - intros t H [v|] evs E; cbn [ser copies] in *; [|lia]. destruct (ser t v) as [l| |] eqn:L; cbn [bind] in E; try discriminate. injection E as <-. specialize (H v l L).
    cbn [bincode_size fold_right size_ev]. fold (bincode_size l). lia.
  - intros t H v evs E. cbn [ser copies] in *. destruct (ser_seq (map (ser t) v)) as [l| |] eqn:L; cbn [bind] in E; try discriminate. injection E as <-.
    cbn [bincode_size fold_right size_ev]. fold (bincode_size l).
    assert (fold_right (fun x n => copies t x + n) 0 v <= N.of_nat (bincode_size l))%N; [|lia].
    revert l L. induction v as [|x v IH]; intros l L; cbn [fold_right]; [lia|]. cbn [map] in L. apply ser_seq_cons in L as (a & b & L1 & L2 & ->).
    specialize (H x a L1). specialize (IH b L2). rewrite bincode_size_app. lia.
  - intros vs [_ H] v evs E. exact (H 0%N v evs E).
  - split; [intros v evs _; cbn [copies_all]; lia|]. intros i [].
  - intros t H fs [Hs Ha]. split.
    + intros [v vs] evs E. cbn [sers copies_all fst snd] in *. destruct (ser t v) as [a| |] eqn:A; cbn [bind] in E; try discriminate.
      destruct (sers fs vs) as [b| |] eqn:B; cbn [bind] in E; try discriminate. injection E as <-. specialize (H v a A). specialize (Hs vs b B). rewrite bincode_size_app. lia.
    + intros i [v|y] evs E; cbn [seralts copies_alt] in *.
      * destruct (ser t v) as [a| |] eqn:A; cbn [bind] in E; try discriminate. injection E as <-. specialize (H v a A).
        cbn [bincode_size fold_right size_ev]. fold (bincode_size a). lia.
      * exact (Ha _ y evs E).
Qed.

Open Scope N_scope.
(** ** All types *)
Lemma consumed_nonempty size_of t b c v r : (0 < min_size t)%nat -> c_de size_of t b = (c, Ok (v, r)) -> (length r < length b)%nat.
Proof.
  intros M E. pose proof (erases_de size_of t b) as D. rewrite E in D. cbn [snd] in D. symmetry in D.
  destruct (f_ok t (facts_of t) _ _ _ D) as (x & -> & R & EN & _ & L & _). pose proof (f_min t (facts_of t) v R EN). rewrite app_length. lia.
Qed.
Lemma bounded_all size_of wr wm :
  (forall t, no_empty_elements t = true -> exists K F B, bounded wr wm bsize K F B (c_de size_of t)) /\
  (forall fs, none_has_empty_elements fs = true ->
     exists K F B, (forall i, bounded wr wm asize K F B (c_des size_of fs i)) /\ (forall i, bounded wr wm bsize K F B (c_dealts size_of fs i))).
Proof.
  set (K0 := 3 * wr + 5 * wm). set (F0 := wm * 4096). assert (3 * wr + 4 * wm <= K0) as HK by lia.
  apply ty_tys_ind; cbn [c_de];
    try (intros _; exists K0, F0, wr; apply bounded_prim;
         first [apply rest_u8|apply rest_uint|apply (rest_of TBits)|apply (rest_of TBool)|apply (rest_of TI8)|apply (rest_of TI16)|apply (rest_of TI32)|apply (rest_of TI64)
               |apply (rest_of TI128)|apply (rest_of TChar)]).
  - intros _. exists K0, F0. eexists. apply bounded_vec_u8; lia.
  - intros _. exists K0, F0. eexists. apply bounded_address.
  - intros _. exists K0, F0. eexists. apply bounded_varlen16; lia.
  - intros _. exists K0, F0. eexists. apply bounded_varlen32; lia.
  - intros _. exists K0, F0. eexists. apply bounded_varlen64; lia.
  - intros _. exists K0, F0. eexists. apply bounded_rawend; lia.
  - intros _. exists K0, F0. eexists. apply bounded_nested; lia.
  - intros _. exists K0, F0. eexists. apply bounded_time.
  - intros _. exists K0, F0. eexists. apply bounded_puncture.
  - intros _. exists K0, F0. eexists. apply bounded_puncture_request.
  - intros _. exists K0, F0. eexists. apply bounded_introduction_request; lia.
  - intros _. exists K0, F0. eexists. apply bounded_introduction_response; lia.
  - intros _. exists K0, F0. eexists. apply bounded_bin_member; lia.
  - intros fs IH N. destruct (IH N) as (K & F & B & H & _). exists K, F, B. apply bounded_tuple, H.
  - intros _. exists K0, F0. eexists. apply bounded_string; lia.
  - intros t IH N. destruct (IH N) as (K & F & B & H). exists K, F. eexists. apply bounded_option, H.
  - intros t IH N. cbn [no_empty_elements] in N. apply andb_true_iff in N as [N1 N2]. apply Nat.ltb_lt in N1. destruct (IH N2) as (K & F & B & H).
    do 3 eexists. apply bounded_vec; [exact H|]. intros b c v r E. now apply (consumed_nonempty size_of t b c v r).
  - intros vs IH N. destruct (IH N) as (K & F & B & _ & H). exists K, F. eexists. apply bounded_bind; [apply bounded_prim, rest_uint|]. exact H.
  - intros _. exists 0, 0, 0. split; intros i; cbn [c_des c_dealts]; [apply bounded_ret|apply bounded_err].
  - intros t IH fs IHs N. cbn [none_has_empty_elements] in N. apply andb_true_iff in N as [N1 N2].
    destruct (IH N1) as (K & F & B & H), (IHs N2) as (Ks & Fs & Bs & Hs & Ha).
    assert (bounded wr wm bsize (K + Ks) (F + Fs) B (c_de size_of t)) as H' by (eapply bounded_weaken; [exact H|lia..]).
    exists (K + Ks), (F + Fs), (wr + B + Bs). split; intros i; cbn [c_des c_dealts].
    + apply bounded_bind; [now apply bounded_next_required|]. intros x. apply (bounded_map _ _ _ _ _ _ _ (fun xs => (x, xs))).
      eapply bounded_weaken; [apply Hs|lia..].
    + intros b. destruct (i =? 0).
      * revert b. change (bounded wr wm bsize (K + Ks) (F + Fs) (wr + B + Bs) (fun b => spend (Cost 1 0) (let! (x, r) := c_de size_of t b in free (Ok (@inl _ (talts fs) x, r))))).
        eapply bounded_more; [apply bounded_spend, bounded_map, H'|unfold mu; cbn [steps memory]; lia].
      * revert b. change (bounded wr wm bsize (K + Ks) (F + Fs) (wr + B + Bs) (fun b => spend (Cost 1 0) (let! (x, r) := c_dealts size_of fs (N.pred i) b in free (Ok (@inr (tval t) _ x, r))))).
        assert (forall i, bounded wr wm bsize (K + Ks) (F + Fs) Bs (c_dealts size_of fs i)) as Ha' by (intros j; eapply bounded_weaken; [apply Ha|lia..]).
        eapply bounded_more; [apply bounded_spend, bounded_map, Ha'|unfold mu; cbn [steps memory]; lia].
Qed.

(** ** One read *)
Lemma payload_cost size_of wr wm t K F B Z Z0 :
  bounded wr wm bsize K F B (c_de size_of t) ->
  (forall v evs, in_range t v -> encodable t v -> ser t v = Ok evs -> N.of_nat (silents evs) <= Z * N.of_nat (bincode_size evs) + Z0) ->
  forall d,
  match c_next_payload size_of t d with
  | (c, (d', Ok v)) => exists m L,
      L <= m /\ m <= remaining d /\ m <= 863 * L /\ (N.of_nat (min_size t) <= L) /\ remaining d' + L = remaining d /\
      mu wr wm c <= K * m + B + wr * ((Z + 2) * L + Z0) + wm * L
  | (c, _) => mu wr wm c <= K * remaining d + B + F
  end.
Proof.
  intros H S d. unfold c_next_payload, remaining. destruct (le_lt_dec (index d) (length (packet_bytes (pntr d)))) as [I|I].
  2:{ rewrite slice_from_none by exact I. cbn [or_panic]. unfold cbind, free, mu. cbn [snd fst steps memory]. lia. }
  rewrite slice_from_ok by exact I. cbn [or_panic]. set (b := skipn (index d) (packet_bytes (pntr d))).
  assert (N.of_nat (length (packet_bytes (pntr d)) - index d) = bsize b) as RB by (unfold bsize, b; now rewrite skipn_length). rewrite RB.
  specialize (H b). pose proof (erases_de size_of t b) as D.
  match goal with |- context [fst ?x] => set (run := x) end.
  destruct (c_de size_of t b) as [c [[v r]|e|p]] eqn:C; cbn [fst snd] in *.
  2:{ assert (run = (plus (Cost 0 0) c, Err e)) as -> by (unfold run, cbind, free, spend; cbn [fst snd]; now rewrite C).
      cbn [fst snd]. rewrite mu_plus. unfold mu at 1. cbn [steps memory]. lia. }
  2:{ assert (run = (plus (Cost 0 0) c, Panic p)) as -> by (unfold run, cbind, free, spend; cbn [fst snd]; now rewrite C).
      cbn [fst snd]. rewrite mu_plus. unfold mu at 1. cbn [steps memory]. lia. }
  symmetry in D. destruct (f_ok t (facts_of t) _ _ _ D) as (x & EB & R & EN & _ & L & _). pose proof (f_min t (facts_of t) v R EN) as M.
  pose proof (proj1 swollen t _ _ _ D) as SW.
  destruct (f_ser t (facts_of t) v R) as [[_ (evs & SE & W)]|[NE _]]; [|contradiction].
  assert (run = (plus (Cost 0 0) (plus c (plus (size_pass t v) (plus (Cost 0 0) (Cost 0 0)))), Ok (v, bincode_size evs))) as ->.
  { unfold run, cbind, free, spend. cbn [fst snd]. rewrite C. cbn [fst snd]. now rewrite SE. }
  unfold size_pass. rewrite SE. cbn [fst snd].
  pose proof (written_size t v evs R EN SE) as WS. pose proof (proj1 copies_le t v evs SE) as CL. pose proof (calls_bound evs) as CB.
  specialize (S v evs R EN SE). rewrite WS in *. destruct H as [H1 H2].
  exists (N.of_nat (length x)), (N.of_nat (length (layout t v))).
  assert (bsize b = bsize r + N.of_nat (length x)) as EB' by (unfold bsize; rewrite EB, app_length; lia).
  assert (length b = length r + length x)%nat as EB2 by (rewrite EB, app_length; lia).
  split; [lia|]. split; [lia|]. split; [lia|]. split; [lia|]. split; [cbn [pntr index packet_bytes]; unfold bsize in *; lia|].
  rewrite !mu_plus. rewrite EB' in H2.
  match goal with |- context [mu wr wm (Cost ?a ?k)] =>
    match a with 0 => fail 1 | _ => assert (mu wr wm (Cost a k) <= wr * ((Z + 2) * N.of_nat (length (layout t v)) + Z0) + wm * N.of_nat (length (layout t v))) by (apply mu_le; cbn [steps memory]; lia) end end.
  replace (mu wr wm (Cost 0 0)) with 0 by (unfold mu; cbn [steps memory]; lia). lia.
Qed.

(** ** C125 *)
(** C125: The costs are those of the decoders: with the costs left out, reading a payload, looking at the header and taking it are what they are in Packet.v. *)
Lemma p_C125_same_results :
  forall (size_of : ty -> N) (t : ty) (d : deserializer),
  snd (c_next_payload size_of t d) = next_payload t d /\ snd (c_peek_header d) = peek_header d /\ snd (c_pop_header d) = pop_header d.
Proof.
  intros size_of t d. split; [apply erases_next_payload|]. split; [apply erases_peek|apply erases_pop]. Qed.

Lemma sizes_linear t : no_empty_elements t = true ->
  exists Z, forall v evs, in_range t v -> encodable t v -> ser t v = Ok evs -> N.of_nat (silents evs) <= Z * N.of_nat (bincode_size evs) + Z.
Proof.
  intros N. destruct (proj1 silents_linear t N) as [Z H]. exists (N.of_nat Z). intros v evs R E S. specialize (H v evs R E S). nia.
Qed.

(** one constant per type *)
Lemma payload_linear size_of t : no_empty_elements t = true ->
  exists K, forall d,
  match c_next_payload size_of t d with
  | (c, (d', Ok v)) => exists L, N.of_nat (min_size t) <= L /\ remaining d' + L = remaining d /\ steps c + memory c <= K * (L + 1)
  | (c, _) => steps c + memory c <= K * (remaining d + 1)
  end.
Proof.
  intros N. destruct (proj1 (bounded_all size_of 1 1) t N) as (K & F & B & H). destruct (sizes_linear t N) as (Z & S).
  exists (863 * K + B + F + Z + 3). intros d. pose proof (payload_cost size_of 1 1 t K F B Z Z H S d) as P.
  destruct (c_next_payload size_of t d) as [c [d' [v|e|p]]]; unfold mu in P.
  - destruct P as (m & L & P1 & P2 & P3 & P4 & P5 & P6). exists L. split; [exact P4|]. split; [exact P5|].
    pose proof (N.mul_le_mono_l _ _ K P3). lia.
  - nia.
  - nia.
Qed.

(** C125: Reading a payload, whatever its type, takes a number of steps and an amount of memory at most proportional to the bytes that are left in the packet; provided the type contains no vector of elements that may be empty. *)
Lemma p_C125_reading_is_linear :
  forall (size_of : ty -> N) (t : ty),
  no_empty_elements t = true ->
  exists K, forall d, at_most (K * (remaining d + 1)) (fst (c_next_payload size_of t d)).
Proof.
  intros size_of t.
  intros N. destruct (payload_linear size_of t N) as (K & H). exists K. intros d. specialize (H d). unfold at_most.
  destruct (c_next_payload size_of t d) as [c [d' [v|e|p]]]; cbn [fst].
  - destruct H as (L & H1 & H2 & H3). assert (K * (L + 1) <= K * (remaining d + 1)) by (apply N.mul_le_mono_l; lia). lia.
  - lia.
  - lia.
Qed.

Lemma library_atomic t : In t library_types -> atomic t = true /\ no_empty_elements t = true.
Proof. intros I. cbn [library_types In] in I. repeat (destruct I as [<-|I]; [now split|]). destruct I. Qed.
Lemma library_bounded size_of wr wm t : In t library_types -> bounded wr wm bsize (3 * wr + 5 * wm) (wm * 4096) (78 * wr + 8 * wm) (c_de size_of t).
Proof.
  intros I. cbn [library_types In] in I. repeat (destruct I as [<-|I]; [cbn [c_de]|]); [..|destruct I].
  - eapply bounded_more; [apply bounded_prim, (rest_of TBits)|lia].
  - eapply bounded_more; [apply bounded_address|lia].
  - eapply bounded_more; [apply bounded_varlen16; lia|lia].
  - eapply bounded_more; [apply bounded_varlen32; lia|lia].
  - eapply bounded_more; [apply bounded_varlen64; lia|lia].
  - eapply bounded_more; [apply bounded_rawend; lia|lia].
  - eapply bounded_more; [apply bounded_nested; lia|lia].
  - eapply bounded_more; [apply bounded_time|lia].
  - eapply bounded_more; [apply bounded_puncture|lia].
  - eapply bounded_more; [apply bounded_puncture_request|lia].
  - eapply bounded_more; [apply bounded_introduction_request; lia|lia].
  - eapply bounded_more; [apply bounded_introduction_response; lia|lia].
  - eapply bounded_more; [apply bounded_bin_member; lia|lia].
Qed.

(** C125: The library's own payloads take at most 5 steps and 6 bytes of memory per byte left, apart from constants; 4096 of the latter are serde's cautious first request. *)
Lemma p_C125_library_payloads :
  forall (size_of : ty -> N) (t : ty) (d : deserializer),
  In t library_types ->
  steps (fst (c_next_payload size_of t d)) <= 5 * remaining d + 91 /\
  memory (fst (c_next_payload size_of t d)) <= 6 * remaining d + 4104.
Proof.
  intros size_of t d.
  intros I. destruct (library_atomic t I) as [A N].
  assert (forall v evs, in_range t v -> encodable t v -> ser t v = Ok evs -> N.of_nat (silents evs) <= 0 * N.of_nat (bincode_size evs) + 13) as S.
  { intros v evs _ _ E. pose proof (silents_atomic t v evs A E). lia. }
  pose proof (payload_cost size_of 1 0 t _ _ _ 0 13 (library_bounded size_of 1 0 t I) S d) as P1.
  pose proof (payload_cost size_of 0 1 t _ _ _ 0 13 (library_bounded size_of 0 1 t I) S d) as P2.
  destruct (c_next_payload size_of t d) as [c [d' [v|e|p]]]; cbn [fst]; unfold mu in P1, P2.
  - destruct P1 as (m & L & P & Q & _ & _ & _ & P1), P2 as (m2 & L2 & Pa & Qa & _ & _ & _ & P2). lia.
  - lia.
  - lia.
Qed.

(** C125: Looking at the header of a packet and taking it need at most 70 steps and 28 bytes of memory, whatever the packet. *)
Lemma p_C125_headers :
  forall (d : deserializer),
  steps (fst (c_peek_header d)) <= 70 /\ memory (fst (c_peek_header d)) <= 28 /\
  steps (fst (c_pop_header d)) <= 70 /\ memory (fst (c_pop_header d)) <= 28.
Proof.
  intros d.
  assert (steps (fst (c_peek_header d)) <= 70 /\ memory (fst (c_peek_header d)) <= 28) as [H1 H2]; [|unfold c_pop_header; cbn [fst]; auto].
  unfold c_peek_header. destruct (or_panic (slice_from (packet_bytes (pntr d)) (index d))) as [b| |]; unfold free, cbind; cbn [snd fst steps memory]; try (split; lia).
  pose proof (bounded_header 1 0 0 0 b) as P. pose proof (bounded_header 0 1 0 0 b) as Q. unfold mu in P, Q.
  destruct (c_header b) as [c [[h r]|e|p]]; unfold spend, plus; cbn [fst snd steps memory]; lia.
Qed.

(** the largest constant of several types *)
Lemma common_constant size_of types : Forall (fun t => no_empty_elements t = true) types ->
  exists K, forall t, In t types -> forall d,
  match c_next_payload size_of t d with
  | (c, (d', Ok v)) => exists L, N.of_nat (min_size t) <= L /\ remaining d' + L = remaining d /\ steps c + memory c <= K * (L + 1)
  | (c, _) => steps c + memory c <= K * (remaining d + 1)
  end.
Proof.
  induction 1 as [|t l N _ (K & IH)]; [exists 0; intros t []|]. destruct (payload_linear size_of t N) as (K0 & H).
  exists (K0 + K). intros t' [<-|I] d.
  - specialize (H d). destruct (c_next_payload size_of t d) as [c [d' [v|e|p]]].
    + destruct H as (L & H1 & H2 & H3). exists L. nia.
    + nia.
    + nia.
  - specialize (IH t' I d). destruct (c_next_payload size_of t' d) as [c [d' [v|e|p]]].
    + destruct IH as (L & H1 & H2 & H3). exists L. nia.
    + nia.
    + nia.
Qed.

(** C125: A handler that reads payloads until a read fails, however many and in whatever order, takes steps and memory at most proportional to the packet; provided no type occupies no bytes. Without that, the number of reads is added to the length of the packet. *)
Lemma p_C125_loops :
  forall (size_of : ty -> N) (types : list ty),
  Forall (fun t => no_empty_elements t = true) types ->
  exists K, forall ts, Forall (fun t => In t types) ts -> forall d,
    at_most (K * (remaining d + N.of_nat (length ts))) (cost_of_reads size_of d ts) /\
    (Forall (fun t => (0 < min_size t)%nat) types -> at_most (K * (remaining d + 1)) (cost_of_reads size_of d ts)).
Proof.
  intros size_of types.
  intros N. destruct (common_constant size_of types N) as (K & H). exists (2 * K). intros ts I.
  assert (forall d, steps (cost_of_reads size_of d ts) + memory (cost_of_reads size_of d ts) <= 2 * K * (remaining d + N.of_nat (length ts)) /\
    (Forall (fun t => (0 < min_size t)%nat) types -> steps (cost_of_reads size_of d ts) + memory (cost_of_reads size_of d ts) <= 2 * K * (remaining d + 1))) as G.
  2:{ intros d. destruct (G d) as [G1 G2]. unfold at_most. split; [lia|]. intros M. specialize (G2 M). lia. }
  induction I as [|t ts It I IH]; intros d; cbn [cost_of_reads]; [cbn [steps memory length]; lia|].
  specialize (H t It d). destruct (c_next_payload size_of t d) as [c [d' [v|e|p]]].
  - destruct H as (L & H1 & H2 & H3). destruct (IH d') as [IH1 IH2]. unfold plus. cbn [steps memory length].
    split; [nia|]. intros M. specialize (IH2 M). rewrite Forall_forall in M. specialize (M t It). assert (1 <= L) by lia. nia.
  - cbn [length]. split; [nia|]. intros _. nia.
  - cbn [length]. split; [nia|]. intros _. nia.
Qed.

(** a vector of empty elements *)
Lemma empty_elements_cost {A} (s : N) (f : list byte -> costly (A * list byte)) : (forall c, f [] = c -> exists k v, c = (k, Ok (v, []))) ->
  forall n have cap, have <= cap ->
  N.of_nat n <= steps (fst (c_elements s f n have cap [])) /\
  s * (have + N.of_nat n) <= memory (fst (c_elements s f n have cap [])) + s * cap /\
  exists l, snd (c_elements s f n have cap []) = Ok (l, []).
Proof.
  intros H. destruct (H _ eq_refl) as (k & v & E). induction n as [|n IH]; intros have cap L; cbn [c_elements].
  - unfold spend, free, plus. cbn [fst snd steps memory]. split; [lia|]. split; [|now exists []].
    replace (have + N.of_nat 0) with have by lia. pose proof (N.mul_le_mono_l _ _ s L). lia.
  - rewrite E. unfold cbind. cbn [fst snd]. destruct (push s have cap) as [c cap'] eqn:P.
    destruct (push_spec _ _ _ L _ _ P) as (S1 & L' & _). destruct (IH (have + 1) cap' L') as (I1 & I2 & l & I3).
    destruct (c_elements s f n (have + 1) cap' []) as [c' o]. cbn [fst snd] in I1, I2, I3. subst o.
    unfold spend, free, plus. cbn [fst snd steps memory]. split; [lia|]. split; [|now exists (v :: l)].
    assert (s * cap' <= memory c + s * cap) as M.
    { unfold push in P. cbv zeta in P. destruct (have =? cap); apply pair_equal_spec in P as [<- <-]; cbn [memory]; lia. }
    replace (have + N.of_nat (S n)) with (have + 1 + N.of_nat n) by lia. lia.
Qed.

(** C125: For a vector of elements that may be empty it is false: eight bytes in a packet, the number of elements, make a read of a vector of [RawEnd]s take that many steps and room for that many elements, up to 2^64 - 1. *)
Lemma p_C125_empty_elements_refuted :
  forall (size_of : ty -> N) (n : N),
  n < 2 ^ 64 ->
  let c := fst (c_next_payload size_of (TVec TRawEnd) (Deserializer (Packet (u64_bytes n)) 0)) in
  n <= steps c /\ n * size_of TRawEnd <= memory c.
Proof.
  intros size_of n.
  intros Hn. cbv zeta. unfold c_next_payload. cbn [pntr index packet_bytes]. rewrite slice_from_ok by lia. cbn [or_panic skipn].
  set (b := u64_bytes n).
  assert (n <= steps (fst (c_de size_of (TVec TRawEnd) b)) /\ n * size_of TRawEnd <= memory (fst (c_de size_of (TVec TRawEnd) b))) as G.
  { cbn [c_de]. unfold c_vec, cbind, prim. cbn [fst snd].
    assert (de_u64 b = Ok (n, [])) as -> by (pose proof (f_round TU64 (facts_of TU64) n [] Hn I eq_refl) as R; now rewrite app_nil_r in R).
    set (s := size_of TRawEnd). assert (0 <= cautious n) as L by lia.
    destruct (empty_elements_cost s c_rawend) with (n := N.to_nat n) (have := 0) (cap := cautious n) as (E1 & E2 & _); [|exact L|].
    - intros c <-. exists (Cost 2 0), (RawEnd []). reflexivity.
    - rewrite N2Nat.id in E1, E2. unfold spend, plus. cbn [fst snd steps memory]. change (tval TRawEnd) with rawend. lia. }
  unfold cbind, free. cbn [fst snd]. unfold spend, plus.
  destruct (c_de size_of (TVec TRawEnd) b) as [c [[v r]|e|p]]; cbn [fst snd steps memory] in *; [|lia..].
  destruct (bincode_serialized_size _); cbn [fst snd steps memory]; lia.
Qed.

(** Examples *)
Definition message_type : ty := TStruct (FCons TU16 (FCons (TVec TAddress) (FCons (TOption TString) (FCons TBinMember FNil)))).
Example ex_C125_types :
  no_empty_elements message_type = true /\ no_empty_elements (TVec (TVec TVarLen16)) = true /\ no_empty_elements (TVec TRawEnd) = false /\
  no_empty_elements (TVec (TStruct FNil)) = false /\
  forallb no_empty_elements library_types = true /\ (0 < min_size message_type)%nat.
Proof. vm_compute. repeat split; lia. Qed.
(** nine bytes of raw data: 29 steps to read them, 10 for the size; room for 8 bytes, then 16 *)
Example ex_C125_raw : forall size_of, fst (c_next_payload size_of TRawEnd (Deserializer (Packet (bs [1; 2; 3; 4; 5; 6; 7; 8; 9])) 0)) = Cost 39 24.
Proof. reflexivity. Qed.
(** a vector that claims to have 300 elements, of which there are two: one step for the length, 13 per address with its push, four before the end is met; room for 300 addresses was requested *)
Example ex_C125_claim :
  fst (c_next_payload (fun _ => 32) (TVec TAddress) (Deserializer (Packet (u64_bytes 300 ++ bs [1; 2; 3; 4; 0; 5; 1; 2; 3; 4; 0; 6])) 0)) = Cost 31 9600.
Proof. reflexivity. Qed.
(** two byte strings, then two reads of which the first fails, so the second is not made *)
Example ex_C125_reads : forall size_of,
  cost_of_reads size_of (Deserializer (Packet (bs [0; 2; 7; 7; 0; 1; 9; 0])) 0) [TVarLen16; TVarLen16; TVarLen16; TU8] = Cost 22 16 /\
  remaining (Deserializer (Packet (bs [0; 2; 7; 7; 0; 1; 9; 0])) 0) = 8.
Proof. split; reflexivity. Qed.
