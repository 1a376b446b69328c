(** * CustomProofs: C97, C98 *)
From Coq Require Import Strings.String Sorting.Sorted.
From Verif Require Import Base Serde Codec Universe Spec SerdeFacts CodecFacts Utf8Facts UniverseFacts Packet PacketFacts Custom CustomSpec FieldProofs.
Open Scope nat_scope.

(** ** C97: arbitrary impls *)

Lemma custom_next_at {A} (I : impl A) p i :
  i <= length p ->
  custom_next I (Deserializer (Packet p) i) =
    match parse I (skipn i p) with
    | Ok (x, _) =>
        match calls I x with
        | Ok cs => (Deserializer (Packet p) (i + length (bincode_write cs)), Ok x)
        | Err e => (Deserializer (Packet p) i, Err e)
        | Panic q => (Deserializer (Packet p) i, Panic q)
        end
    | Err e => (Deserializer (Packet p) i, Err e)
    | Panic q => (Deserializer (Packet p) i, Panic q)
    end.
Proof.
  intros Hi. unfold custom_next. cbn [pntr packet_bytes index].
  rewrite slice_from_ok by assumption. cbn [or_panic bind].
  destruct (parse I (skipn i p)) as [[x r]| |]; cbn [bind]; try reflexivity.
  destruct (calls I x) as [cs| |] eqn:E; cbn; try reflexivity.
  now rewrite bincode_size_write.
Qed.

(** C97. Types derived from the library's are one case. *)
Lemma p_C97_derived_types :
  forall (t : ty) (p : packet) (x : tval t) (d : deserializer),
    custom_add (derived t) p x = packet_add t p x /\ custom_next (derived t) d = next_payload t d.
Proof. intros. split; reflexivity. Qed.

(** C97. Whatever the impls do: a value parsed from the bytes [used] at the cursor is returned if it can be serialized again, and the cursor
    moves by the number of bytes of that serialization, so it is behind the payload exactly if both have the same length. A value that
    cannot be serialized is not returned, and nothing moves. *)
Lemma p_C97_cursor :
  forall (A : Type) (I : impl A) (before used after : list byte) (x : A),
    let d := Deserializer (Packet (before ++ used ++ after)) (length before) in
    parse I (used ++ after) = Ok (x, after) ->
    (forall bytes, serializes I x bytes ->
       exists d', custom_next I d = (d', Ok x) /\ pntr d' = pntr d /\ index d' = index d + length bytes /\
         (index d' = length (before ++ used) <-> length bytes = length used)) /\
    (forall e, calls I x = Err e -> custom_next I d = (d, Err e)).
Proof.
  intros A I before used after x d H.
  assert (E : forall o, o = custom_next I d -> o =
     match calls I x with
        | Ok cs => (Deserializer (Packet (before ++ used ++ after)) (length before + length (bincode_write cs)), Ok x)
        | Err e => (d, Err e)
        | Panic q => (d, Panic q)
        end).
  { intros o ->. unfold d. rewrite custom_next_at by (rewrite app_length; lia).
    rewrite skipn_app_exact by reflexivity. now rewrite H. }
  specialize (E _ eq_refl). rewrite E. split.
  - intros bytes (cs & -> & <-). eexists. split; [reflexivity|]. cbn [pntr index d].
    split; [reflexivity|]. split; [reflexivity|]. rewrite app_length. unfold d. cbn [index]. lia.
  - intros e ->. reflexivity.
Qed.

(** C97. If a serialization is longer than what is left, the cursor is behind the end of the packet, and the next read of any
    payload panics. *)
Lemma p_C97_overrun :
  forall (A : Type) (I : impl A) (p : list byte) (i : nat) (x : A) (after bytes : list byte),
    i <= length p ->
    parse I (skipn i p) = Ok (x, after) -> serializes I x bytes -> length p < i + length bytes ->
    let d := fst (custom_next I (Deserializer (Packet p) i)) in
    snd (custom_next I (Deserializer (Packet p) i)) = Ok x /\
    forall (B : Type) (J : impl B), exists site, custom_next J d = (d, Panic site).
Proof.
  intros A I p i x after bytes Hi HP (cs & HC & <-) HL. cbv zeta.
  rewrite custom_next_at, HP, HC by assumption. cbn [fst snd]. split; [reflexivity|].
  intros B J. unfold custom_next. cbn [pntr packet_bytes index]. unfold slice_from.
  destruct (Nat.leb_spec (i + length (bincode_write cs)) (length p)) as [H|H]; [lia|].
  eexists. reflexivity.
Qed.

(** C97. Payloads whose impls fit together are read back as they were added, in any mixture of types, and the cursor ends behind the last. *)
Lemma p_C97_sequence :
  forall (l : list item) (p : packet),
    Forall (fun it => fits (item_impl it) (item_value it)) l ->
    exists p', add_items l p = (p', Ok tt) /\
      forall q after, packet_bytes q = packet_bytes p' ++ after ->
        reads_items l (Deserializer q (length (packet_bytes p))) (length (packet_bytes p')).
Proof.
  intros l p H. revert p. induction H as [|[A I x] l Hx Hl IH]; intros p.
  { exists p. now split. }
  destruct Hx as (bytes & (cs & HC & HW) & HP). cbn [item_impl item_value item_type] in *.
  destruct (IH (Packet (packet_bytes p ++ bytes))) as (p' & HA & HR).
  exists p'. split.
  { cbn [add_items]. unfold custom_add, packet_extend. rewrite HC. cbn. rewrite HW. exact HA. }
  intros q after Hq. specialize (HR q after Hq).
  assert (Pre : exists m, packet_bytes p' = packet_bytes p ++ bytes ++ m).
  { assert (G : forall l0 (p0 p1 : packet), add_items l0 p0 = (p1, Ok tt) -> exists m, packet_bytes p1 = packet_bytes p0 ++ m).
    { clear. induction l0 as [|[A I x] l0 IH]; intros p0 p1; cbn [add_items].
      - intros [= <-]. exists []. now rewrite app_nil_r.
      - unfold custom_add, packet_extend. destruct (bincode_serialize (calls I x)) as [i| |]; try discriminate.
        intros H. destruct (IH _ _ H) as [m E]. cbn [packet_bytes] in E. exists (i ++ m). now rewrite app_assoc. }
    destruct (G _ _ _ HA) as [m E]. cbn [packet_bytes] in E. exists m. now rewrite E, app_assoc. }
  destruct Pre as [m Pre]. destruct q as [q]. cbn [packet_bytes] in Hq. subst q. rewrite Pre in *.
  cbn [reads_items]. rewrite <- !app_assoc. rewrite custom_next_at by (rewrite app_length; lia).
  rewrite skipn_app_exact by reflexivity. rewrite HP, HC, HW. cbn [fst snd]. split; [reflexivity|].
  cbn [packet_bytes] in HR. rewrite app_length, <- !app_assoc in HR. exact HR.
Qed.
(** C97. The impls of self-delimiting types of the universe fit together for every value that can be encoded and arrives unchanged. *)
Lemma p_C97_derived_types_fit :
  forall (t : ty) (x : tval t),
    self_delimiting t = true -> in_range t x -> encodable t x -> transmitted t x = x -> fits (derived t) x.
Proof.
  intros t x Hs Hr He Ht. exists (layout t x). split.
  - destruct (f_ser t (facts_of t) x Hr) as [[_ (evs & E & W)]|[N _]]; [|contradiction]. now exists evs.
  - intros rest. cbn [parse derived]. rewrite (f_round t (facts_of t)) by assumption. now rewrite Ht.
Qed.

(** A type with an old short form: one byte, or 8 bytes; it is always written in 8 bytes. *)
Definition legacy : impl N :=
  Impl (fun n => Ok [EvU64 n])
       (fun b => if length b <? 8 then let* (x, r) := de_u8 b in Ok (N_of_byte x, r) else de_u64 b).
Example ex_C97_cursor :
  (* it fits together with itself *)
  fits legacy 7%N /\
  (* the short form: read, the cursor is behind the end, and every further read panics *)
  custom_next legacy (start_deserialize (Packet [x07])) = (Deserializer (Packet [x07]) 8, Ok 7%N) /\
  (forall B (J : impl B), exists site, snd (custom_next J (Deserializer (Packet [x07]) 8)) = Panic site).
Proof.
  split; [|split; [reflexivity|]].
  - exists (u64_bytes 7). split; [eexists; split; [reflexivity|]; reflexivity|]. intros rest. reflexivity.
  - intros B J.
    destruct (p_C97_overrun N legacy [x07] 0 7%N [] (u64_bytes 7)) as [_ H]; try (cbn; lia).
    { reflexivity. }
    { eexists; split; reflexivity. }
    destruct (H B J) as [s Hs]. exists s.
    change (fst (custom_next legacy (Deserializer (Packet [x07]) 0))) with (Deserializer (Packet [x07]) 8) in Hs.
    now rewrite Hs.
Qed.
Example ex_C97_sequence :
  let l := [Item legacy 7%N; Item (derived TString) (bs [0x68; 0x69]%N); Item (derived TU16) 513%N] in
  Forall (fun it => fits (item_impl it) (item_value it)) l /\
  fst (add_items l (Packet [xff])) =
    Packet (xff :: u64_bytes 7 ++ u64_bytes 2 ++ bs [0x68; 0x69; 2; 1]%N).
Proof.
  split; [|reflexivity]. repeat constructor.
  - exists (u64_bytes 7). split; [eexists; split; [reflexivity|]; reflexivity|]. intros rest. reflexivity.
  - apply p_C97_derived_types_fit; try easy. split; [reflexivity|]. exists [0x68; 0x69]%N. split; [|reflexivity].
    repeat constructor; unfold is_scalar; lia.
  - apply p_C97_derived_types_fit; easy.
Qed.

(** ** C98: BTreeMap *)

Section Maps.
Context (k v : ty) (cmp : tval k -> tval k -> comparison) (O : total_order cmp).
Notation entry := (entry k v).
Notation key := (key_of k v).
Notation ins := (insert k v cmp).

Fixpoint sum (w : tval entry -> nat) (m : list (tval entry)) : nat :=
  match m with [] => 0 | e :: m => w e + sum w m end.
(** the weight of the entries with the key of [e] *)
Definition same (e f : tval entry) : bool := match cmp (key f) (key e) with Eq => true | _ => false end.
Definition found (w : tval entry -> nat) (e : tval entry) (m : list (tval entry)) : nat :=
  sum (fun f => if same e f then w f else 0) m.

Lemma cmp_refl x : cmp x x = Eq.
Proof. now apply (cmp_eq cmp O). Qed.
Lemma same_spec e f : same e f = true <-> key f = key e.
Proof. unfold same. rewrite <- (cmp_eq cmp O). now destruct (cmp (key f) (key e)). Qed.

Lemma sum_ext w w' m : (forall f, In f m -> w f = w' f) -> sum w m = sum w' m.
Proof. induction m as [|e m IH]; intros H; [reflexivity|]. cbn. rewrite (H e) by (now left). rewrite IH; [reflexivity|].
  intros f Hf. apply H. now right. Qed.
Lemma sum_zero m : sum (fun _ => 0) m = 0.
Proof. now induction m. Qed.

Lemma found_above w e m : (forall f, In f m -> cmp (key e) (key f) = Lt) -> found w e m = 0.
Proof.
  intros H. unfold found. transitivity (sum (fun _ => 0) m); [|apply sum_zero]. apply sum_ext. intros f Hf. apply H in Hf.
  destruct (same e f) eqn:S; [|reflexivity]. apply same_spec in S. rewrite S, cmp_refl in Hf. discriminate.
Qed.

Lemma entry_eta (e f : tval entry) : key f = key e -> (key f, snd e) = e.
Proof. intros ->. now destruct e. Qed.

Lemma ins_sum w e m : ascending cmp m -> sum w (ins e m) + found w e m = sum w m + w e.
Proof.
  induction 1 as [|f m HS IH HF]; cbn [insert sum].
  { unfold found. cbn. lia. }
  unfold found. cbn [sum]. fold (found w e m). rewrite Forall_forall in HF.
  destruct (cmp (key e) (key f)) eqn:E.
  - apply (cmp_eq cmp O) in E. assert (S : same e f = true) by (now apply same_spec). rewrite S.
    rewrite entry_eta by congruence. cbn [sum]. rewrite found_above; [lia|]. intros g Hg. rewrite E. now apply HF.
  - assert (S : same e f = false).
    { destruct (same e f) eqn:S; [|reflexivity]. apply same_spec in S. rewrite S, cmp_refl in E. discriminate. }
    rewrite S. cbn [sum]. rewrite found_above; [lia|]. intros g Hg. eapply (cmp_lt_trans cmp O); [exact E|]. now apply HF.
  - assert (S : same e f = false).
    { destruct (same e f) eqn:S; [|reflexivity]. apply same_spec in S. rewrite S, cmp_refl in E. discriminate. }
    rewrite S. cbn [sum]. lia.
Qed.

Lemma ins_keys e m f : In f (ins e m) -> key f = key e \/ In f m.
Proof.
  induction m as [|g m IH]; cbn [insert In]; [intuition (subst; auto)|].
  destruct (cmp (key e) (key g)) eqn:E; cbn [In].
  - apply (cmp_eq cmp O) in E. intros [<-|H]; [left; cbn; congruence|auto].
  - intuition (subst; auto).
  - intuition.
Qed.

Lemma ins_ascending e m : ascending cmp m -> ascending cmp (ins e m).
Proof.
  induction 1 as [|f m HS IH HF]; cbn [insert].
  { constructor; constructor. }
  destruct (cmp (key e) (key f)) eqn:E.
  - constructor; [exact HS|]. exact HF.
  - constructor; [now constructor|]. constructor; [exact E|].
    rewrite Forall_forall in *. intros g Hg. eapply (cmp_lt_trans cmp O); [exact E|]. now apply HF.
  - constructor; [exact IH|]. rewrite Forall_forall in *. intros g Hg. apply ins_keys in Hg as [->|Hg]; [|now apply HF].
    now apply (cmp_gt cmp O).
Qed.

Lemma lookup_none x m : (forall f, In f m -> key f <> x) -> lookup (k := k) (v := v) cmp x m = None.
Proof.
  induction m as [|e m IH]; intros H; cbn [lookup]; [reflexivity|]. rewrite IH by (intros; apply H; now right).
  destruct (cmp (key e) x) eqn:E; try reflexivity. apply (cmp_eq cmp O) in E. exfalso. eapply H; [now left|exact E].
Qed.
Lemma lookup_none_iff x m : lookup (k := k) (v := v) cmp x m = None <-> ~ In x (map key m).
Proof.
  split.
  - induction m as [|e m IH]; cbn [lookup map In]; [easy|].
    destruct (lookup cmp x m); [discriminate|]. destruct (cmp (key e) x) eqn:E; try discriminate;
      intros _ [H|H]; try (now apply IH in H); rewrite H, cmp_refl in E; discriminate.
  - intros H. apply lookup_none. intros f Hf E. apply H. rewrite <- E. now apply in_map.
Qed.

Lemma ins_lookup x e m : ascending cmp m ->
  lookup cmp x (ins e m) = match cmp (key e) x with Eq => Some (value_of k v e) | _ => lookup cmp x m end.
Proof.
  induction 1 as [|f m HS IH HF]; cbn [insert lookup].
  { now destruct (cmp (key e) x). }
  rewrite Forall_forall in HF.
  assert (Above : cmp (key f) x = Eq -> lookup cmp x m = None).
  { intros E. apply (cmp_eq cmp O) in E. apply lookup_none. intros g Hg Eg. apply HF in Hg.
    rewrite Eg, E, cmp_refl in Hg. discriminate. }
  destruct (cmp (key e) (key f)) eqn:E; cbn [lookup].
  - apply (cmp_eq cmp O) in E.
    change (key_of k v (key_of k v f, snd e)) with (key f).
    change (value_of k v (key_of k v f, snd e)) with (value_of k v e). rewrite E.
    destruct (cmp (key f) x) eqn:Ex; try reflexivity. now rewrite Above.
  - destruct (cmp (key e) x) eqn:Ex.
    + apply (cmp_eq cmp O) in Ex. rewrite lookup_none.
      * destruct (cmp (key f) x) eqn:Ef; try reflexivity. apply (cmp_eq cmp O) in Ef. rewrite Ef, <- Ex, cmp_refl in E. discriminate.
      * intros g Hg Eg. apply HF in Hg. rewrite Eg, <- Ex in Hg. apply (cmp_gt cmp O) in Hg. rewrite E in Hg. discriminate.
    + now destruct (match lookup cmp x m with Some y => _ | None => _ end).
    + now destruct (match lookup cmp x m with Some y => _ | None => _ end).
  - rewrite IH. destruct (cmp (key e) x) eqn:Ex; reflexivity.
Qed.

Definition to_map (l m : list (tval entry)) : list (tval entry) := fold_left (fun m e => ins e m) l m.

Definition size (e : tval entry) : nat := length (layout entry e).
Lemma sum_layout m : sum size m = length (flat_map (layout entry) m).
Proof. induction m as [|e m IH]; [reflexivity|]. cbn [sum flat_map]. rewrite app_length, IH. reflexivity. Qed.

Lemma to_map_ascending l : forall m, ascending cmp m -> ascending cmp (to_map l m).
Proof. induction l as [|e l IH]; intros m H; [exact H|]. cbn. apply IH. now apply ins_ascending. Qed.
Lemma to_map_lookup x l : forall m, ascending cmp m ->
  lookup cmp x (to_map l m) = match lookup cmp x l with Some y => Some y | None => lookup cmp x m end.
Proof.
  induction l as [|e l IH]; intros m H; cbn [to_map fold_left lookup]; [reflexivity|].
  fold (to_map l (ins e m)). rewrite IH, ins_lookup by auto using ins_ascending.
  destruct (lookup cmp x l); [reflexivity|]. destruct (cmp (key e) x); reflexivity.
Qed.
Lemma to_map_size l : forall m, ascending cmp m ->
  sum size (to_map l m) + replaced_bytes cmp l
    + sum (fun f => match lookup cmp (key f) l with Some _ => size f | None => 0 end) m
  = sum size m + sum size l.
Proof.
  induction l as [|e l IH]; intros m H; cbn [to_map fold_left replaced_bytes sum].
  { cbn [lookup]. rewrite sum_zero. lia. }
  fold (to_map l (ins e m)). specialize (IH (ins e m) (ins_ascending e m H)).
  set (w := fun f => match lookup cmp (key f) l with Some _ => size f | None => 0 end) in *.
  pose proof (ins_sum size e m H) as S1. pose proof (ins_sum w e m H) as S2.
  assert (S3 : sum (fun f => match lookup cmp (key f) (e :: l) with Some _ => size f | None => 0 end) m + found w e m
             = sum w m + found size e m).
  { clear - O. unfold found. induction m as [|f m IH]; [reflexivity|]. cbn [sum].
    assert (P : match lookup cmp (key f) (e :: l) with Some _ => size f | None => 0 end + (if same e f then w f else 0)
                = w f + (if same e f then size f else 0)).
    { unfold w, same. cbn [lookup]. destruct (lookup cmp (key f) l).
      - destruct (cmp (key f) (key e)); lia.
      - destruct (cmp (key f) (key e)) eqn:E1, (cmp (key e) (key f)) eqn:E2; try lia.
        + apply (cmp_eq cmp O) in E1. rewrite E1, cmp_refl in E2. discriminate.
        + apply (cmp_eq cmp O) in E1. rewrite E1, cmp_refl in E2. discriminate.
        + apply (cmp_eq cmp O) in E2. rewrite E2, cmp_refl in E1. discriminate.
        + apply (cmp_eq cmp O) in E2. rewrite E2, cmp_refl in E1. discriminate. }
    lia. }
  change (match lookup cmp (key e) l with Some _ => length (layout entry e) | None => 0 end) with (w e).
  change (@length byte (@layout entry e)) with (size e) in *. lia.
Qed.
Lemma to_map_in l : forall m f, In f (to_map l m) -> In f m \/ In f l.
Proof.
  induction l as [|e l IH]; intros m f H; cbn in *; [auto|]. apply IH in H as [H|H]; [|auto].
  assert (G : forall m, In f (ins e m) -> f = e \/ In f m).
  { clear - O. induction m as [|g m IH]; cbn [insert In]; [intuition|].
    destruct (cmp (key e) (key g)) eqn:E; cbn [In].
    - apply (cmp_eq cmp O) in E. rewrite entry_eta by congruence. intuition.
    - intuition.
    - intuition. }
  apply G in H as [->|H]; auto.
Qed.

Lemma map_entry_auth : has_auth k = false -> has_auth v = false -> has_auth (TVec entry) = false.
Proof. intros H1 H2. cbn. now rewrite H1, H2. Qed.

(** C98. Reading a BTreeMap compared with reading the vector of its entries at the same place *)
Lemma map_exact p i :
  has_auth k = false -> has_auth v = false -> i <= length p ->
  let d := Deserializer (Packet p) i in
  match next_payload (TVec entry) d with
  | (d', Ok l) =>
      exists m d'', custom_next (btreemap k v cmp) d = (d'', Ok m) /\ pntr d'' = pntr d /\
        index d'' + replaced_bytes cmp l = index d' /\
        ascending cmp m /\ forall x, lookup cmp x m = lookup cmp x l
  | (_, Err e) => custom_next (btreemap k v cmp) d = (d, Err e)
  | (_, Panic _) => False
  end.
Proof.
  intros Hk Hv Hi d. unfold d. rewrite custom_next_at, next_payload_eq by assumption.
  cbn [parse btreemap de]. unfold de_vec, de_map.
  pose proof (f_no_panic (TVec entry) (facts_of (TVec entry)) (skipn i p)) as NP.
  pose proof (fun l r => f_ok (TVec entry) (facts_of (TVec entry)) (skipn i p) l r) as OK.
  cbn [de] in NP, OK. unfold de_vec in NP, OK.
  destruct (de_u64 (skipn i p)) as [[n r]|e|q]; cbn [bind] in *;
    [|reflexivity|exfalso; eapply NP; [now apply map_entry_auth|reflexivity]].
  destruct (seq_elements (de entry) (N.to_nat n) r) as [[l r']|e|q]; cbn [bind] in *;
    [|reflexivity|exfalso; eapply NP; [now apply map_entry_auth|reflexivity]].
  destruct (OK l r' eq_refl) as (c & _ & [Rn Rl] & El & _). clear OK NP.
  fold (to_map l []). set (m := to_map l []).
  assert (Inm : forall f, In f m -> In f l).
  { intros f Hf. destruct (to_map_in l [] f Hf) as [[]|H]. exact H. }
  assert (Asc : ascending cmp m) by (apply to_map_ascending; constructor).
  pose proof (to_map_size l [] ltac:(constructor)) as Sz. fold m in Sz. cbn [sum] in Sz.
  assert (Nd : length m <= length l).
  { clear - O. unfold m, to_map. change (length l) with (length (@nil (tval entry)) + length l).
    generalize (@nil (tval entry)). induction l as [|e l IH]; intros m0; cbn [fold_left length]; [lia|].
    specialize (IH (ins e m0)). cut (length (ins e m0) <= S (length m0)); [lia|].
    clear. induction m0 as [|f m0 IH]; cbn [insert length]; [lia|]. destruct (cmp _ _); cbn [length]; lia. }
  destruct (f_ser (TVec entry) (facts_of (TVec entry)) m) as [[_ (evs & E & W)]|[N _]].
  { split.
    - change (@len (tval entry) l < 2 ^ 64)%N in Rn. change (@len (tval entry) m < 2 ^ 64)%N. unfold len in *.
      eapply N.le_lt_trans; [|exact Rn]. clear - Nd. lia.
    - rewrite Forall_forall in *. auto. }
  2:{ exfalso. apply N. cbn [encodable] in *. rewrite Forall_forall in *. auto. }
  change (calls (btreemap k v cmp) m) with (ser (TVec entry) m). rewrite E, W.
  exists m. eexists. split; [reflexivity|]. split; [reflexivity|]. split; [|split; [exact Asc|]].
  - cbn [index]. rewrite !layout_vec, !app_length. change (length (u64_bytes (len m))) with 8. change (length (u64_bytes (len l))) with 8.
    rewrite !sum_layout in Sz. lia.
  - intros x. unfold m. rewrite to_map_lookup by constructor. now destruct (lookup cmp x l).
Qed.

Lemma ins_last e m : (forall f, In f m -> cmp (key f) (key e) = Lt) -> ins e m = m ++ [e].
Proof.
  induction m as [|f m IH]; intros H; cbn [insert app]; [reflexivity|].
  assert (G : cmp (key e) (key f) = Gt) by (apply (cmp_gt cmp O), H; now left).
  rewrite G, IH; [reflexivity|]. intros g Hg. apply H. now right.
Qed.
Lemma to_map_ascending_id l : forall m, ascending cmp (m ++ l) -> to_map l m = m ++ l.
Proof.
  induction l as [|e l IH]; intros m H; cbn [to_map fold_left]; [now rewrite app_nil_r|].
  fold (to_map l (ins e m)). rewrite ins_last.
  - rewrite IH; rewrite <- app_assoc; [reflexivity|exact H].
  - clear IH. induction m as [|f m IHm]; intros g Hg; [destruct Hg|].
    inversion_clear H. destruct Hg as [<-|Hg].
    + rewrite Forall_forall in H1. apply H1. apply in_app_iff. right. now left.
    + now apply IHm.
Qed.

Lemma repeated_key l : ~ NoDup (map key l) -> exists e r, In e l /\ incl r l /\ lookup cmp (key e) r <> None /\
  length (layout entry e) <= replaced_bytes cmp l.
Proof.
  induction l as [|e l IH]; intros H; [exfalso; apply H; constructor|].
  destruct (lookup cmp (key e) l) as [y|] eqn:E.
  - exists e, l. split; [now left|]. split; [intros g; now right|]. rewrite E. split; [discriminate|].
    cbn [replaced_bytes]. rewrite E. lia.
  - assert (ND : ~ NoDup (map key l)).
    { intros N. apply H. cbn. constructor; [|exact N]. now apply lookup_none_iff. }
    destruct (IH ND) as (f & r & H1 & H2 & H3 & H4). exists f, r. split; [now right|].
    split; [intros g Hg; right; auto|]. split; [exact H3|]. cbn [replaced_bytes]. rewrite E. lia.
Qed.
Lemma distinct_keys l : NoDup (map key l) -> replaced_bytes cmp l = 0.
Proof.
  induction l as [|e l IH]; intros H; [reflexivity|]. cbn in H. inversion_clear H.
  cbn [replaced_bytes]. rewrite IH by assumption. now rewrite (proj2 (lookup_none_iff (key e) l)).
Qed.
End Maps.

(** C98. Reading a [BTreeMap<K, V>] succeeds exactly if reading a vector of pairs does at the same place, and fails with the same error; the map
    has, for every key, the value of the last pair with that key. The cursor then is not behind the pairs, but short of that by the
    bytes of the pairs that were replaced. *)
Lemma p_C98_read :
  forall (k v : ty) (cmp : tval k -> tval k -> comparison) (p : list byte) (i : nat),
    total_order cmp -> has_auth k = false -> has_auth v = false -> i <= length p ->
    let d := Deserializer (Packet p) i in
    match next_payload (TVec (entry k v)) d with
    | (d', Ok l) =>
        exists m d'', custom_next (btreemap k v cmp) d = (d'', Ok m) /\ pntr d'' = pntr d /\
          index d'' + replaced_bytes cmp l = index d' /\
          ascending cmp m /\ forall x, lookup cmp x m = lookup cmp x l
    | (_, Err e) => custom_next (btreemap k v cmp) d = (d, Err e)
    | (_, Panic _) => False
    end.
Proof. intros k v cmp p i O. now apply map_exact. Qed.

(** C98. So the cursor is where the next payload begins if no key comes twice. *)
Lemma p_C98_distinct_keys :
  forall (k v : ty) (cmp : tval k -> tval k -> comparison) (p : list byte) (i : nat) d' (l : list (tval (entry k v))),
    total_order cmp -> has_auth k = false -> has_auth v = false -> i <= length p ->
    next_payload (TVec (entry k v)) (Deserializer (Packet p) i) = (d', Ok l) ->
    NoDup (map (key_of k v) l) ->
    exists m, custom_next (btreemap k v cmp) (Deserializer (Packet p) i) = (d', Ok m).
Proof.
  intros k v cmp p i d' l O Hk Hv Hi E ND. pose proof (map_exact k v cmp O p i Hk Hv Hi) as M. cbv zeta in M.
  rewrite E in M. destruct M as (m & d'' & E' & Hp & Hx & _). rewrite (distinct_keys k v cmp O) in Hx by assumption.
  exists m. rewrite E'. f_equal. rewrite next_payload_eq in E by assumption.
  destruct (de (TVec (entry k v)) (skipn i p)) as [[l' r]| |]; try discriminate. injection E as <- _.
  destruct d'' as [q j]. cbn [pntr index] in *. subst q. f_equal. lia.
Qed.

(** C98, the exception: if a key comes twice, the cursor is inside the map. *)
Lemma p_C98_duplicate_keys_refuted :
  forall (k v : ty) (cmp : tval k -> tval k -> comparison) (p : list byte) (i : nat) d' (l : list (tval (entry k v))),
    total_order cmp -> has_auth k = false -> has_auth v = false -> i <= length p -> 0 < min_size k ->
    next_payload (TVec (entry k v)) (Deserializer (Packet p) i) = (d', Ok l) ->
    ~ NoDup (map (key_of k v) l) ->
    exists m d'', custom_next (btreemap k v cmp) (Deserializer (Packet p) i) = (d'', Ok m) /\ index d'' < index d'.
Proof.
  intros k v cmp p i d' l O Hk Hv Hi Hm E ND. pose proof (map_exact k v cmp O p i Hk Hv Hi) as M. cbv zeta in M.
  rewrite E in M. destruct M as (m & d'' & E' & Hp & Hx & _). exists m, d''. split; [exact E'|].
  destruct (repeated_key k v cmp O l ND) as (e & _ & He & _ & _ & Hl).
  rewrite next_payload_eq in E by assumption.
  destruct (de (TVec (entry k v)) (skipn i p)) as [[l' r]| |] eqn:D; try discriminate. injection E as _ ->.
  destruct (f_ok _ (facts_of (TVec (entry k v))) _ _ _ D) as (c & _ & [_ R] & En & _).
  cbn [encodable] in En. rewrite Forall_forall in R, En.
  pose proof (f_min _ (facts_of (entry k v)) e (R e He) (En e He)) as Mn.
  cbn [min_size entry min_sizes] in Mn. change (@length byte (@layout (entry k v) e)) with (length (layout (entry k v) e)) in *. lia.
Qed.

(** C98. A map that was added is read back. *)
Lemma p_C98_round_trip :
  forall (k v : ty) (cmp : tval k -> tval k -> comparison) (m : list (tval (entry k v))),
    total_order cmp -> ascending cmp m -> self_delimiting k = true -> self_delimiting v = true ->
    (len m < 2 ^ 64)%N -> Forall (fun e => in_range (entry k v) e /\ encodable (entry k v) e /\ transmitted (entry k v) e = e) m ->
    fits (btreemap k v cmp) m.
Proof.
  intros k v cmp m O A Sk Sv Hl H.
  assert (T : transmitted (TVec (entry k v)) m = m).
  { cbn [transmitted]. clear - H. induction H as [|e m [_ [_ H]] _ IH]; [reflexivity|].
    cbn [map]. f_equal; [exact H|exact IH]. }
  destruct (p_C97_derived_types_fit (TVec (entry k v)) m) as (bytes & S & P).
  - cbn. now rewrite Sk, Sv.
  - split; [exact Hl|]. eapply Forall_impl; [|exact H]. now intros e [H1 _].
  - eapply Forall_impl; [|exact H]. now intros e [_ [H1 _]].
  - exact T.
  - exists bytes. split; [exact S|]. intros rest. specialize (P rest). cbn [parse derived btreemap de] in *.
    unfold de_map. unfold de_vec in P. destruct (de_u64 (bytes ++ rest)) as [[n r]| |]; try discriminate. cbn [bind] in *.
    rewrite P. cbn [bind]. fold (to_map k v cmp m []). now rewrite (to_map_ascending_id k v cmp O).
Qed.

(** BTreeMap<u8, u8> *)
Definition cmp_u8 (x y : byte) : comparison := N.compare (N_of_byte x) (N_of_byte y).
Lemma cmp_u8_order : total_order cmp_u8.
Proof.
  split; unfold cmp_u8.
  - intros x y. rewrite N.compare_eq_iff. split; [|now intros ->].
    intros H. rewrite <- (byte_of_N_of_byte x), <- (byte_of_N_of_byte y). now f_equal.
  - intros x y. rewrite N.compare_gt_iff, N.compare_lt_iff. lia.
  - intros x y z. rewrite !N.compare_lt_iff. lia.
Qed.
(** The key 1 twice, then a u16 that was sent as 0x0909: the receiver takes the second pair for it. *)
Example ex_C98_map :
  let one := bs [0; 0; 0; 0; 0; 0; 0; 2; 1; 5; 2; 6; 9; 9]%N in
  let twice := bs [0; 0; 0; 0; 0; 0; 0; 2; 1; 5; 1; 6; 9; 9]%N in
  let read p := let '(d, m) := custom_next (btreemap TU8 TU8 cmp_u8) (start_deserialize (Packet p)) in
                (m, snd (next_payload TU16 d)) in
  read one = (Ok [(x01, (x05, tt)); (x02, (x06, tt))], Ok 0x0909%N) /\
  read twice = (Ok [(x01, (x06, tt))], Ok 0x0106%N) /\
  ascending (k := TU8) (v := TU8) cmp_u8 [(x01, (x05, tt)); (x02, (x06, tt))] /\
  ~ NoDup (map (key_of TU8 TU8) [(x01, (x05, tt)); (x01, (x06, tt))]).
Proof.
  split; [reflexivity|]. split; [reflexivity|]. split; [repeat constructor|].
  intros H. inversion_clear H. apply H0. now left.
Qed.
