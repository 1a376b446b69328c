(** * ReceivingProofs: memory and work of the listener and the registry (C130) *)
From Verif Require Import Base Serde Codec SerdeFacts Universe Spec Packet PacketFacts HeaderProofs Community Network NetSpec NetworkProofs Cost CostSpec CostProofs Receiving ReceivingSpec.
Open Scope N_scope.

Lemma run_cost_run c q0 tr k s : run_cost c q0 tr k s -> run c (net_init c q0) tr s.
Proof. induction 1; [constructor|econstructor; eassumption]. Qed.

(** C130: Every execution of the listener has a cost, and the executions that have one are those of Network.v. *)
Lemma p_C130_same_executions :
  forall (c : net_config) (q0 : list datagram) (tr : list label) (s : net_state),
  run c (net_init c q0) tr s <-> exists k, run_cost c q0 tr k s.
Proof.
  intros c q0 tr s. split; [|intros (k & H); eapply run_cost_run; eassumption].
  intros H. remember (net_init c q0) as s0 eqn:E. induction H as [s|s tr s1 l s2 R IH S]; subst.
  - eexists. constructor.
  - destruct (IH eq_refl) as (k & K). eexists. econstructor; eassumption.
Qed.

Record sizes (c : net_config) (s : net_state) : Prop := {
  z_buffer : length (ns_buffer s) = nc_buffersize c;
  z_pc : match ns_pc s with
         | Dispatching _ pkt _ pe ru _ => (length pkt <= nc_buffersize c)%nat /\ (length pe + length ru <= nc_receivers c)%nat
         | _ => True
         end }.

Lemma recv_into_len data buffer : length (fst (recv_into data buffer)) = length buffer /\ (snd (recv_into data buffer) <= length buffer)%nat /\ snd (recv_into data buffer) = Nat.min (length data) (length buffer).
Proof.
  unfold recv_into. cbn [fst snd]. rewrite app_length, firstn_length, skipn_length. lia.
Qed.

Lemma sizes_step c s l s' : sizes c s -> step c s l s' -> sizes c s'.
Proof.
  intros [B P] S. inversion S; subst; clear S; cbn [set_pc] in *;
    repeat match goal with E : ns_pc _ = _ |- _ => rewrite E in P; clear E end; try (split; cbn; auto; fail).
  - match goal with |- context [recv_into ?a ?b] => pose proof (recv_into_len a b) as (L1 & L2 & _); destruct (recv_into a b) as [b' n] end.
    cbn [fst snd] in *. split; cbn [set_pc ns_buffer ns_pc]; [congruence|]. rewrite firstn_length, seq_length. cbn [length]. lia.
  - split; cbn [set_pc ns_buffer ns_pc]; [assumption|]. rewrite !app_length in *. cbn [length] in *. lia.
  - split; cbn [set_pc ns_buffer ns_pc]; [assumption|]. rewrite !app_length in *. cbn [length] in *. lia.
  - split; cbn [set_pc ns_buffer ns_pc]; [assumption|]. rewrite !app_length in *. cbn [length] in *. lia.
Qed.
Lemma sizes_run c q0 tr s : run c (net_init c q0) tr s -> sizes c s.
Proof.
  intros H. remember (net_init c q0) as s0 eqn:E. induction H as [s|s tr s1 l s2 R IH S]; subst.
  - split; cbn; [apply repeat_length|exact I].
  - eapply sizes_step; eauto.
Qed.

(** C130: However many datagrams arrive, how fast and of whatever size, and however long receivers take: the vectors of the listener never hold more than the size of the receive buffer times the number of receivers plus two (times three if there are no receivers). *)
Lemma p_C130_memory_is_bounded :
  forall (c : net_config) (q0 : list datagram) (tr : list label) (s : net_state) (l : label) (s' : net_state),
  run c (net_init c q0) tr s -> step c s l s' ->
  peak s l s' <= N.of_nat (nc_buffersize c) * (2 + N.max 1 (N.of_nat (nc_receivers c))).
Proof.
  intros c q0 tr s l s' R S. pose proof (sizes_run _ _ _ _ R) as Z. pose proof (sizes_step _ _ _ _ Z S) as Z'.
  assert (B : forall x, sizes c x -> held x <= N.of_nat (nc_buffersize c) * (2 + N.max 1 (N.of_nat (nc_receivers c)))).
  { intros x [Zb Zp]. unfold held, size. rewrite Zb. destruct (ns_pc x); try nia. }
  unfold peak. destruct l; try (apply N.max_lub; auto; fail).
  destruct (ns_pc s') eqn:E; try (apply N.max_lub; auto; fail).
  destruct Z' as [Zb Zp]. rewrite E in Zp. unfold size. rewrite Zb. nia.
Qed.

(** C130: When it waits for datagrams the listener holds its receive buffer and nothing else, whatever it has received before. *)
Lemma p_C130_no_leak :
  forall (c : net_config) (q0 : list datagram) (tr : list label) (s : net_state),
  run c (net_init c q0) tr s -> ns_pc s = Polling -> held s = N.of_nat (nc_buffersize c).
Proof.
  intros c q0 tr s R P. destruct (sizes_run _ _ _ _ R) as [Zb _]. unfold held, size. rewrite P, Zb. lia.
Qed.

Lemma bytes_received_app c a b : bytes_received c (a ++ b) = bytes_received c a + bytes_received c b.
Proof. unfold bytes_received. induction a as [|d a IH]; [reflexivity|]. cbn [app fold_right]. rewrite IH. lia. Qed.

Definition unpaid (s : net_state) : N :=
  match ns_pc s with
  | Dispatching _ pkt _ pe _ _ => size pkt * N.of_nat (length pe)
  | _ => 0
  end.

Lemma received_recv c q0 tr s d q : inv c q0 tr s -> ns_queue s = d :: q -> received q0 (tr ++ [LRecv]) = received q0 tr ++ [d].
Proof.
  intros [Q C _ _] E. unfold received at 1. rewrite recvs_app, arrivals_app. cbn [recvs arrivals]. rewrite app_nil_r.
  rewrite Q, E. rewrite firstn_app, C. rewrite firstn_all2 by lia.
  replace (recvs tr + 1 - recvs tr)%nat with 1%nat by lia. reflexivity.
Qed.

Lemma received_other' c q0 tr s l : inv c q0 tr s -> l <> LRecv -> received q0 (tr ++ [l]) = received q0 tr.
Proof.
  intros [Q C _ _] NL. unfold received. rewrite recvs_app, arrivals_app.
  assert (X : recvs [l] = 0%nat) by (destruct l; congruence || reflexivity). rewrite X, Nat.add_0_r, app_assoc.
  rewrite firstn_app. replace (recvs tr - length (q0 ++ arrivals tr))%nat with 0%nat; [now rewrite app_nil_r|].
  rewrite Q, app_length. lia.
Qed.

(** what is owed until all pending receivers are called *)
Definition paid (c : net_config) (n : N) (k : cost) (s : net_state) : Prop :=
  steps k + unpaid s = (3 + N.of_nat (nc_receivers c)) * n /\
  memory k + unpaid s = N.of_nat (nc_buffersize c) + (2 + N.of_nat (nc_receivers c)) * n \/
  ns_pc s = Stopped StoppedByPanic /\
  steps k <= (3 + N.of_nat (nc_receivers c)) * n /\
  memory k <= N.of_nat (nc_buffersize c) + (2 + N.of_nat (nc_receivers c)) * n.

Lemma run_cost_paid c q0 tr k s : run_cost c q0 tr k s -> paid c (bytes_received c (received q0 tr)) k s.
Proof.
  induction 1 as [|tr k s l s' R IH S]; [left; cbn; lia|].
  pose proof (inv_run _ _ _ _ (run_cost_run _ _ _ _ _ R)) as V.
  assert (X : l = LRecv \/ l <> LRecv) by (destruct l; try (right; discriminate); now left). destruct X as [->|NL].
  - inversion S as [| | | | |? ? data src q P Q| | | | | | | ]; subst.
    rewrite (received_recv c q0 tr s _ q V Q). rewrite bytes_received_app.
    destruct k as [a b]. unfold paid, unpaid in *. rewrite P in IH. cbn [steps memory] in IH.
    destruct IH as [IH|[IH _]]; [|discriminate IH]. left. unfold step_cost.
    pose proof (recv_into_len data (ns_buffer s)) as (L1 & L2 & L3). destruct (recv_into data (ns_buffer s)) as [bf n].
    cbn [fst snd ns_pc] in *. rewrite seq_length. unfold size. rewrite firstn_length.
    replace (Nat.min n (length bf)) with n by lia.
    unfold bytes_received at 2 4. cbn [fold_right fst]. rewrite (i_buffer _ _ _ _ V) in L3. rewrite <- L3.
    cbn [plus steps memory]. clear -IH. generalize dependent (N.of_nat n); generalize dependent (bytes_received c (received q0 tr)). intros. nia.
  - rewrite (received_other' c q0 tr s l V NL). destruct k as [a b]. unfold paid, unpaid in *. cbn [steps memory] in IH.
    destruct IH as [IH|[E IH]].
    + inversion S; subst; clear S; try congruence; cbn [set_pc ns_pc step_cost plus steps memory];
        repeat match goal with E : ns_pc _ = _ |- _ => rewrite E in IH end; rewrite ?app_length in *; cbn [length] in *.
      all: try (left; lia).
      right. split; [reflexivity|]. nia.
    + inversion S; subst; clear S; cbn [set_pc ns_pc step_cost plus steps memory]; try congruence.
      right. rewrite E. cbn [plus steps memory]. split; [reflexivity|]. lia.
Qed.

(** C130: An execution copies every byte that it receives at most three times and once for each receiver, and requests memory for it at most twice and once for each receiver, besides the receive buffer. What is cut off from datagrams, and what still waits in the socket, costs nothing. *)
Lemma p_C130_work_is_linear :
  forall (c : net_config) (q0 : list datagram) (tr : list label) (k : cost) (s : net_state),
  run_cost c q0 tr k s ->
  steps k <= (3 + N.of_nat (nc_receivers c)) * bytes_received c (received q0 tr) /\
  memory k <= N.of_nat (nc_buffersize c) + (2 + N.of_nat (nc_receivers c)) * bytes_received c (received q0 tr).
Proof. intros c q0 tr k s H. pose proof (run_cost_paid _ _ _ _ _ H) as [[A B]|(_ & A & B)]; lia. Qed.

(** C130: Whenever the listener waits again, this is exactly what it cost so far. *)
Lemma p_C130_work_exact :
  forall (c : net_config) (q0 : list datagram) (tr : list label) (k : cost) (s : net_state),
  run_cost c q0 tr k s -> ns_pc s = Polling ->
  steps k = (3 + N.of_nat (nc_receivers c)) * bytes_received c (received q0 tr) /\
  memory k = N.of_nat (nc_buffersize c) + (2 + N.of_nat (nc_receivers c)) * bytes_received c (received q0 tr).
Proof.
  intros c q0 tr k s H P.
  destruct (run_cost_paid _ _ _ _ _ H) as [K|[K _]]; [|congruence]. unfold unpaid in K. rewrite P in K. lia.
Qed.

(** C130: [forward_message] with costs does what it does in Community.v. *)
Lemma p_C130_same_forwarding :
  forall (r : registry) (p : packet) (a : address), snd (c_forward_message r p a) = forward_message r p a.
Proof.
  intros r p a. unfold c_forward_message, forward_message.
  pose proof (p_C125_same_results (fun _ => 0) TBits (start_deserialize p)) as (_ & E & _). rewrite <- E.
  destruct (snd (c_peek_header (start_deserialize p))) as [h|e|q]; try reflexivity.
  destruct (h_mid_hash h); reflexivity.
Qed.

Lemma compared_le mid m : compared mid m <= (1 + size mid) * N.of_nat (length m).
Proof.
  induction m as [|[k v] m IH]; [cbn; lia|]. cbn [compared length]. unfold compare_cost.
  destruct (size mid =? size k); destruct (bytes_eqb mid k); lia.
Qed.
Lemma compared_found mid m c : map_get mid m = Some c -> 1 + size mid <= compared mid m.
Proof.
  induction m as [|[k v] m IH]; [discriminate|]. cbn [map_get compared]. destruct (bytes_eqb mid k) eqn:E; intros H.
  - apply bytes_eqb_eq in E as <-. unfold compare_cost. rewrite N.eqb_refl. lia.
  - specialize (IH H). lia.
Qed.

(** C130: Finding the community a packet is for takes at most 70 steps for the header, 20 to hash its mid and 21 for each registered community it is compared with, and 28 bytes of memory, whatever the packet contains and however long it is; the packet itself is not copied. *)
Lemma p_C130_forwarding :
  forall (r : registry) (p : packet) (a : address),
  steps (fst (c_forward_message r p a)) <= 90 + 21 * N.of_nat (length r) /\ memory (fst (c_forward_message r p a)) <= 28.
Proof.
  intros r p a. unfold c_forward_message.
  pose proof (p_C125_headers (start_deserialize p)) as (H1 & H2 & _ & _).
  pose proof (p_C125_same_results (fun _ => 0) TBits (start_deserialize p)) as (_ & E & _).
  destruct (c_peek_header (start_deserialize p)) as [k o]. cbn [fst snd] in *.
  destruct o as [h|e|q]; cbn [fst]; try lia.
  destruct (h_mid_hash h) as [mid|] eqn:M; cbn [fst]; [|lia].
  unfold c_map_get. cbn [fst plus steps memory].
  assert (L : size mid = 20).
  { unfold start_deserialize in E. destruct p as [l]. symmetry in E.
    apply p_C02_header_decoding_exact in E as (L & _ & _ & ->); [|lia]. unfold spec_header in M. cbn [h_mid_hash] in M.
    assert (X : mid = firstn 20 (skipn (0 + 2) l)) by congruence. rewrite X.
    unfold size. rewrite firstn_length, skipn_length. lia. }
  pose proof (compared_le mid r) as C. rewrite L in *. lia.
Qed.

(** the execution with two datagrams of NetworkProofs.v, the first one cut to four bytes: 30 bytes copied, 28 requested *)
Example ex_C130_run : run_cost ex_cfg [] ex_trace (Cost 30 28) ex_final /\ bytes_received ex_cfg [ex_d1; ex_d2] = 6 /\ received [] ex_trace = [ex_d1; ex_d2].
Proof.
  split; [|split; reflexivity].
  destruct (proj1 (p_C130_same_executions _ _ _ _) ex_run) as (k & K).
  destruct (p_C130_work_exact _ _ _ _ _ K eq_refl) as [A B]. destruct k as [a b]. cbn in A, B. now rewrite <- A, <- B.
Qed.

(** while both receivers run the bound is reached: four times the buffer of four bytes *)
Example ex_C130_peak :
  exists s, run ex_cfg (net_init ex_cfg []) [LArrive ex_d1; LPoll 1; LRecv; LCall 1 ex_p1 ex_src; LCall 0 ex_p1 ex_src] s /\ held s = 16 /\
  N.of_nat (nc_buffersize ex_cfg) * (2 + N.max 1 (N.of_nat (nc_receivers ex_cfg))) = 16.
Proof.
  eexists. split; [|split; [|reflexivity]].
  - eapply run_cons; [apply step_arrive|]. eapply run_cons; [apply step_poll_ready; reflexivity|].
    eapply run_cons; [eapply (step_recv _ _ 0 _ _ []); reflexivity|]. cbn.
    eapply run_cons; [eapply (step_call ex_cfg _ _ _ _ [0%nat] 1 []); reflexivity|]. cbn.
    apply run_one. eapply (step_call ex_cfg _ _ _ _ [] 0 []); reflexivity.
  - reflexivity.
Qed.

(** a packet for the second of two communities *)
Example ex_C130_forward :
  let com tag mid := {| c_tag := tag; c_mid := mid; c_on_receive := fun _ _ _ => Ok tt |} in
  let r := [(repeat x01 20, com 1%nat (repeat x01 20)); (repeat x02 20, com 2%nat (repeat x02 20))] in
  fst (c_forward_message r (Packet (x00 :: x02 :: repeat x02 20 ++ [x07; x09])) ex_src) = Cost 132 28.
Proof. vm_compute. reflexivity. Qed.
