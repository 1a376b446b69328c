(** * WritingProofs: C128 *)
From Verif Require Import Base Serde Codec SerdeFacts CodecFacts Universe Spec UniverseFacts Packet Client Cost CostSpec CostProofs Writing WritingSpec.
Open Scope N_scope.

Lemma content_extend b i : content (snd (c_extend b i)) = Packet (packet_bytes (content b) ++ i).
Proof. unfold c_extend. now destruct (reserve _ _ _). Qed.
Lemma snd_serialize k s : snd (c_serialize k s) = bincode_serialize s.
Proof. now destruct s. Qed.

Lemma add_result t b v : let '(c, (b', o)) := c_packet_add t b v in (content b', o) = packet_add t (content b) v.
Proof.
  unfold c_packet_add, packet_add, packet_extend. rewrite snd_serialize. destruct (bincode_serialize (ser t v)) as [i|e|p]; try reflexivity.
  pose proof (content_extend b i). destruct (c_extend b i) as [c b']. cbn [snd] in *. congruence.
Qed.

(** C128: These are the packets of [Packet::new] and [Packet::add]. *)
Lemma p_C128_same_packets :
  forall (h : header) (t : ty) (b : buffer) (v : tval t),
  match snd (c_packet_new h), packet_new h with
  | Ok b, Ok p => content b = p
  | Err e, Err e' => e = e'
  | Panic q, Panic q' => q = q'
  | _, _ => False
  end /\
  (let '(b', o) := snd (c_packet_add t b v) in (content b', o) = packet_add t (content b) v).
Proof.
  intros h t b v. split.
  - unfold c_packet_new, packet_new. rewrite snd_serialize. destruct (bincode_serialize (ser_header h)) as [i|e|p]; try reflexivity.
    pose proof (content_extend (Buffer (Packet []) 0) i). destruct (c_extend _ i) as [c b']. exact H.
  - pose proof (add_result t b v). destruct (c_packet_add t b v) as [c [b' o]]. exact H.
Qed.

Lemma extend_cost b i : let '(c, b') := c_extend b i in
  plen b' = plen b + blen i /\ steps c = blen i /\
  (capacity b <= 2 * plen b + 8 -> plen b <= capacity b ->
   capacity b' <= 2 * plen b' + 8 /\ plen b' <= capacity b' /\ memory c + 2 * capacity b <= 2 * capacity b' /\ capacity b <= capacity b').
Proof.
  pose proof (content_extend b i) as H. unfold c_extend, reserve in *. unfold plen, blen in *.
  destruct (N.leb_spec (N.of_nat (length (packet_bytes (content b))) + N.of_nat (length i)) (capacity b)); cbn [snd content capacity steps memory plus] in *;
    cbn [packet_bytes]; rewrite app_length; unfold plus; cbn [steps memory]; (split; [lia|]; split; [lia|]; intros; lia).
Qed.

Lemma write_cost t v i : in_range t v -> bincode_serialize (ser t v) = Ok i ->
  exists evs, ser t v = Ok evs /\ bincode_size evs = length i /\ encodable t v /\
    let c := fst (c_serialize (size_pass t v) (ser t v)) in
    steps c <= 5 * blen i + 2 * N.of_nat (silents evs) /\ memory c <= 3 * blen i.
Proof.
  intros R S. destruct (f_ser t (facts_of t) v R) as [(E & evs & SE & W)|(_ & C)].
  2: { destruct C as [m C]. rewrite C in S. discriminate. }
  exists evs. rewrite SE in S. cbn [bincode_serialize bind] in S. injection S as <-. split; [exact SE|]. split; [apply bincode_size_write|]. split; [exact E|]. cbv zeta.
  rewrite SE. cbn [c_serialize fst]. unfold size_pass. rewrite SE. unfold plus. cbn [steps memory].
  pose proof (proj1 copies_le t v evs SE). pose proof (calls_bound evs). unfold blen. rewrite bincode_size_write in *. lia.
Qed.

Lemma add_cost t b v c b' : in_range t v -> c_packet_add t b v = (c, (b', Ok tt)) ->
  exists evs, ser t v = Ok evs /\ encodable t v /\ plen b' = plen b + N.of_nat (bincode_size evs) /\
    steps c <= 6 * N.of_nat (bincode_size evs) + 2 * N.of_nat (silents evs) /\
    (capacity b <= 2 * plen b + 8 -> plen b <= capacity b ->
     capacity b' <= 2 * plen b' + 8 /\ plen b' <= capacity b' /\ memory c + 2 * capacity b <= 3 * N.of_nat (bincode_size evs) + 2 * capacity b').
Proof.
  intros R. unfold c_packet_add. rewrite snd_serialize. destruct (bincode_serialize (ser t v)) as [i|e|p] eqn:S; [|discriminate|discriminate].
  pose proof (extend_cost b i) as X. destruct (c_extend b i) as [ce be]. intros Q. apply pair_equal_spec in Q as [<- Q]. apply pair_equal_spec in Q as [<- _].
  destruct (write_cost t v i R S) as (evs & SE & L & E & W1 & W2). destruct X as (X1 & X2 & X3). exists evs.
  unfold plus. cbn [steps memory]. unfold blen in *. rewrite L. repeat split; auto; try lia; destruct (X3 H H0) as (? & ? & ? & ?); lia.
Qed.

(** C128: Adding a payload that no vector of possibly empty elements occurs in takes a number of steps at most proportional to the bytes it adds, however long the packet already is. *)
Lemma p_C128_adding_is_linear :
  forall (t : ty), no_empty_elements t = true ->
  exists K, forall b v c b', in_range t v -> c_packet_add t b v = (c, (b', Ok tt)) -> steps c <= K * (plen b' - plen b + 1).
Proof.
  intros t N. destruct (sizes_linear t N) as [Z H]. exists (6 + 2 * Z). intros b v c b' R A.
  destruct (add_cost t b v c b' R A) as (evs & SE & E & L & S & _). specialize (H v evs R E SE). rewrite L. nia.
Qed.

(** C128: The library's payloads take at most 6 steps per byte added, and 26 more. *)
Lemma p_C128_library_payloads :
  forall (t : ty) b v c b', In t library_types -> in_range t v -> c_packet_add t b v = (c, (b', Ok tt)) -> steps c <= 6 * (plen b' - plen b) + 26.
Proof.
  intros t b v c b' I R A. destruct (add_cost t b v c b' R A) as (evs & SE & E & L & S & _).
  assert (silents evs <= 13)%nat; [|lia]. apply (silents_atomic t v); [|exact SE]. cbn [library_types In] in I.
  repeat (destruct I as [<-|I]; [reflexivity|]). contradiction.
Qed.

(** C128: Making a packet takes four steps per byte of its header. *)
Lemma p_C128_new :
  forall (h : header) c b, c_packet_new h = (c, Ok b) ->
  steps c = 4 * plen b /\ memory c <= 2 * plen b + 8 /\ plen b <= capacity b /\ capacity b <= 2 * plen b + 8.
Proof.
  intros h c b. unfold c_packet_new. rewrite snd_serialize. destruct (bincode_serialize (ser_header h)) as [i|e|p] eqn:S; [|discriminate|discriminate].
  pose proof (extend_cost (Buffer (Packet []) 0) i) as X. unfold c_extend, reserve in *. change (blen (packet_bytes (content (Buffer (Packet []) 0)))) with 0 in *.
  destruct (ser_header h) as [evs| |] eqn:SE; try discriminate. cbn [bincode_serialize bind] in S. injection S as <-.
  assert (length evs = bincode_size evs) as L.
  { unfold ser_header in SE. destruct (h_version h), (h_mid_hash h) as [m|]; [|discriminate]. destruct (h_message_type h); [|discriminate].
    cbn [ok_or bind] in SE. injection SE as <-. cbn [length bincode_size fold_right size_ev]. rewrite app_length, map_length. cbn [length].
    assert (forall l, fold_right (fun (e : ev) (n0 : nat) => (size_ev e + n0)%nat) 0%nat l = bincode_size l) as -> by reflexivity.
    rewrite bincode_size_app, size_u8s. cbn. lia. }
  intros Q. cbn [c_serialize fst] in Q. cbn [capacity content packet_bytes app] in *.
  destruct (N.leb_spec (0 + blen (bincode_write evs)) 0) as [Z|Z]; apply pair_equal_spec in Q as [<- Q]; injection Q as <-;
    unfold plus, plen; cbn [steps memory content capacity packet_bytes]; unfold blen in *; rewrite L, bincode_size_write; lia.
Qed.

Lemma adds_cost : forall l b c b', Forall (fun x => in_range (projT1 x) (projT2 x)) l -> cost_of_adds b l = (c, Ok b') ->
  capacity b <= 2 * plen b + 8 -> plen b <= capacity b ->
  plen b <= plen b' /\ capacity b' <= 2 * plen b' + 8 /\ plen b' <= capacity b' /\ memory c + 2 * capacity b <= 3 * (plen b' - plen b) + 2 * capacity b'.
Proof.
  induction l as [|[t v] l IH]; intros b c b' F A C1 C2; cbn [cost_of_adds] in A.
  - apply pair_equal_spec in A as [<- A]. injection A as <-. cbn [memory]. lia.
  - inversion F as [|? ? R F']; subst. cbn [projT1 projT2] in R. destruct (c_packet_add t b v) as [c1 [b1 [[]|e|p]]] eqn:P; try discriminate.
    destruct (cost_of_adds b1 l) as [c2 o] eqn:Q. apply pair_equal_spec in A as [<- ->].
    destruct (add_cost t b v c1 b1 R P) as (evs & _ & _ & L & _ & X). destruct (X C1 C2) as (X1 & X2 & X3).
    destruct (IH b1 c2 b' F' Q X1 X2) as (I1 & I2 & I3 & I4). unfold plus. cbn [memory]. lia.
Qed.

(** C128: Building a packet, from its header and any payloads of any types in any order, requests at most seven bytes of memory per byte of the packet and 24 more; what it occupies in
    the end is at most twice its length and 8 bytes. *)
Lemma p_C128_memory :
  forall (h : header) c0 b0 l c b,
  c_packet_new h = (c0, Ok b0) -> Forall (fun x => in_range (projT1 x) (projT2 x)) l -> cost_of_adds b0 l = (c, Ok b) ->
  memory (plus c0 c) <= 7 * plen b + 24 /\ plen b <= capacity b /\ capacity b <= 2 * plen b + 8.
Proof.
  intros h c0 b0 l c b N F A. destruct (p_C128_new h c0 b0 N) as (_ & M & C1 & C2).
  destruct (adds_cost l b0 c b F A C2 C1) as (I1 & I2 & I3 & I4). unfold plus. cbn [memory]. lia.
Qed.

Lemma adds_steps K : forall l b c b', cost_of_adds b l = (c, Ok b') ->
  (forall t v, In (existT _ t v) l -> forall b c b', c_packet_add t b v = (c, (b', Ok tt)) -> plen b <= plen b' /\ steps c <= K * (plen b' - plen b + 1)) ->
  plen b <= plen b' /\ steps c <= K * (plen b' - plen b + N.of_nat (length l)).
Proof.
  induction l as [|[t v] l IH]; intros b c b' A H; cbn [cost_of_adds] in A.
  - apply pair_equal_spec in A as [<- A]. injection A as <-. cbn [steps length]. lia.
  - destruct (c_packet_add t b v) as [c1 [b1 [[]|e|p]]] eqn:P; try discriminate. destruct (cost_of_adds b1 l) as [c2 o] eqn:Q. apply pair_equal_spec in A as [<- ->].
    destruct (H t v (or_introl eq_refl) b c1 b1 P) as (X1 & X2). destruct (IH b1 c2 b' Q) as (Y1 & Y2); [intros; apply (H _ _ (or_intror H0) _ _ _ H1)|].
    split; [lia|]. unfold plus. cbn [steps length]. rewrite Nat2N.inj_succ. nia.
Qed.
Lemma adds_length : forall l b c b', cost_of_adds b l = (c, Ok b') -> Forall (fun x => in_range (projT1 x) (projT2 x) /\ (0 < min_size (projT1 x))%nat) l ->
  plen b + N.of_nat (length l) <= plen b'.
Proof.
  induction l as [|[t v] l IH]; intros b c b' A F; cbn [cost_of_adds] in A.
  - apply pair_equal_spec in A as [<- A]. injection A as <-. cbn [length]. lia.
  - inversion F as [|? ? [R M] F']; subst. cbn [projT1 projT2] in R, M. destruct (c_packet_add t b v) as [c1 [b1 [[]|e|p]]] eqn:P; try discriminate.
    destruct (cost_of_adds b1 l) as [c2 o] eqn:Q. apply pair_equal_spec in A as [<- ->].
    destruct (add_cost t b v c1 b1 R P) as (evs & SE & E & L & _). specialize (IH b1 c2 b' Q F').
    destruct (f_ser t (facts_of t) v R) as [(_ & e2 & S2 & W)|(N & _)]; [|contradiction]. assert (e2 = evs) as -> by congruence.
    pose proof (f_min t (facts_of t) v R E). rewrite <- W, <- bincode_size_write in H. cbn [length]. lia.
Qed.

(** C128: Building a packet from payloads of types without vectors of possibly empty elements takes a number of steps at most proportional to its length plus the number of payloads; to its
    length alone if every payload occupies at least one byte. *)
Lemma p_C128_building_is_linear :
  forall (types : list ty), Forall (fun t => no_empty_elements t = true) types ->
  exists K, forall h c0 b0 l c b,
    c_packet_new h = (c0, Ok b0) -> Forall (of_types types) l -> cost_of_adds b0 l = (c, Ok b) ->
    steps (plus c0 c) <= K * (plen b + N.of_nat (length l)) /\
    (Forall (fun t => (0 < min_size t)%nat) types -> steps (plus c0 c) <= K * plen b).
Proof.
  intros types N.
  assert (exists K, 4 <= K /\ forall t, In t types -> forall b v c b', in_range t v -> c_packet_add t b v = (c, (b', Ok tt)) -> plen b <= plen b' /\ steps c <= K * (plen b' - plen b + 1)) as (K & G & H).
  { induction N as [|t ts Nt _ (K & G & IH)]; [exists 4; split; [lia|]; intros t []|]. destruct (p_C128_adding_is_linear t Nt) as (K0 & H0).
    exists (K0 + K). split; [lia|]. intros t' [<-|I] b v c b' R A.
    - destruct (add_cost t b v c b' R A) as (evs & _ & _ & L & _). specialize (H0 b v c b' R A). split; [lia|nia].
    - destruct (IH t' I b v c b' R A). split; [lia|nia]. }
  exists (2 * K). intros h c0 b0 l c b P F A. destruct (p_C128_new h c0 b0 P) as (S & _).
  destruct (adds_steps K l b0 c b A) as (L1 & L2).
  { intros t v I b1 c1 b1' A1. apply (Forall_forall (of_types types) l) in I; [|assumption]. destruct I as [I R]. eapply H; eassumption. }
  unfold plus. cbn [steps]. split; [nia|]. intros M.
  assert (plen b0 + N.of_nat (length l) <= plen b); [|nia].
  eapply adds_length; [exact A|]. apply Forall_forall. intros [t v] I. apply (Forall_forall (of_types types) l) in I; [|assumption]. destruct I as [I R].
  split; [exact R|]. exact (proj1 (Forall_forall _ types) M t I).
Qed.

(** C128: For a vector of empty elements it is false: adding a vector of [n] of them adds eight bytes and takes [n] steps or more. *)
Lemma p_C128_empty_elements_refuted :
  forall (n : nat) (b : buffer),
  let v : tval (TVec (TStruct FNil)) := repeat tt n in
  exists c b', c_packet_add (TVec (TStruct FNil)) b v = (c, (b', Ok tt)) /\ plen b' = plen b + 8 /\ N.of_nat n <= steps c.
Proof.
  intros n b v.
  assert (exists evs, ser (TVec (TStruct FNil)) v = Ok evs /\ length evs = S n /\ bincode_size evs = 8%nat) as (evs & S & L & W).
  { assert (ser_seq (map (ser (TStruct FNil)) v) = Ok (repeat (EvStruct 0) n)) as Q.
    { assert (forall w : list (tval (TStruct FNil)), ser_seq (map (ser (TStruct FNil)) w) = Ok (repeat (EvStruct 0) (length w))) as G.
      { induction w as [|x w IH]; [reflexivity|]. cbn [map ser_seq]. rewrite IH. reflexivity. }
      rewrite (G v). unfold v. now rewrite repeat_length. }
    cbn [ser] in *. rewrite Q. cbn [bind]. eexists. split; [reflexivity|]. split; [cbn [length]; now rewrite repeat_length|].
    cbn [bincode_size fold_right size_ev]. assert (bincode_size (repeat (EvStruct 0) n) = 0)%nat as X by (clear; induction n; [reflexivity|exact IHn]). unfold bincode_size in X. now rewrite X. }
  unfold c_packet_add. rewrite snd_serialize, S. cbn [bincode_serialize bind]. pose proof (extend_cost b (bincode_write evs)) as X.
  destruct (c_extend b (bincode_write evs)) as [c b']. destruct X as (X1 & X2 & _).
  eexists _, b'. split; [reflexivity|]. unfold blen in *. rewrite <- bincode_size_write, W in *. split; [lia|].
  cbn [c_serialize fst]. unfold size_pass, plus. rewrite S. cbn [steps]. lia.
Qed.

(** Examples *)
Definition ex_header : header := py_ipv8_header (repeat x07 20) x2a.
Example ex_C128_new : exists b, c_packet_new ex_header = (Cost 92 46, Ok b) /\ plen b = 23 /\ capacity b = 23.
Proof. eexists. split; [reflexivity|]. split; reflexivity. Qed.
(** a string of three bytes and a timestamp: the vector grows once, from 23 to 46 bytes *)
Definition ex_payloads : list payload := [existT _ TVarLen16 (VarLen16 (bs [1; 2; 3])); existT _ TTime (TimeDistribution 7)].
Example ex_C128_building : exists c0 b0 c b,
  c_packet_new ex_header = (c0, Ok b0) /\ cost_of_adds b0 ex_payloads = (c, Ok b) /\ Forall (of_types [TVarLen16; TTime]) ex_payloads /\
  plen b = 36 /\ capacity b = 46 /\ c = Cost 40 59.
Proof.
  do 4 eexists. split; [reflexivity|]. split; [reflexivity|]. split.
  - repeat (apply Forall_cons || apply Forall_nil); (split; [cbn; auto|]); vm_compute; try reflexivity; auto.
  - repeat split.
Qed.
