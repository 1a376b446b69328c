(** * Prop_Receiving: property theorems (statements only; proofs in ReceivingProofs.v) *)
From Verif Require Import Base Serde Codec SerdeFacts Universe Spec Packet PacketFacts HeaderProofs Community Network NetSpec NetworkProofs Cost CostSpec CostProofs Receiving ReceivingSpec ReceivingProofs.
Open Scope N_scope.

(** C130: Every execution of the listener has a cost, and the executions that have one are those of Network.v. *)
Theorem C130_same_executions :
  forall (c : net_config) (q0 : list datagram) (tr : list label) (s : net_state),
  run c (net_init c q0) tr s <-> exists k, run_cost c q0 tr k s.
Proof. exact p_C130_same_executions. Qed.
Print Assumptions C130_same_executions.

(** C130: However many datagrams arrive, how fast and of whatever size, and however long receivers take: the vectors of the listener never hold more than the size of the receive buffer times the number of receivers plus two (times three if there are no receivers). *)
Theorem C130_memory_is_bounded :
  forall (c : net_config) (q0 : list datagram) (tr : list label) (s : net_state) (l : label) (s' : net_state),
  run c (net_init c q0) tr s -> step c s l s' ->
  peak s l s' <= N.of_nat (nc_buffersize c) * (2 + N.max 1 (N.of_nat (nc_receivers c))).
Proof. exact p_C130_memory_is_bounded. Qed.
Print Assumptions C130_memory_is_bounded.

(** C130: When it waits for datagrams the listener holds its receive buffer and nothing else, whatever it has received before. *)
Theorem C130_no_leak :
  forall (c : net_config) (q0 : list datagram) (tr : list label) (s : net_state),
  run c (net_init c q0) tr s -> ns_pc s = Polling -> held s = N.of_nat (nc_buffersize c).
Proof. exact p_C130_no_leak. Qed.
Print Assumptions C130_no_leak.

(** C130: An execution copies every byte that it receives at most three times and once for each receiver, and requests memory for it at most twice and once for each receiver, besides the receive buffer. What is cut off from datagrams, and what still waits in the socket, costs nothing. *)
Theorem C130_work_is_linear :
  forall (c : net_config) (q0 : list datagram) (tr : list label) (k : cost) (s : net_state),
  run_cost c q0 tr k s ->
  steps k <= (3 + N.of_nat (nc_receivers c)) * bytes_received c (received q0 tr) /\
  memory k <= N.of_nat (nc_buffersize c) + (2 + N.of_nat (nc_receivers c)) * bytes_received c (received q0 tr).
Proof. exact p_C130_work_is_linear. Qed.
Print Assumptions C130_work_is_linear.

(** C130: Whenever the listener waits again, this is exactly what it cost so far. *)
Theorem C130_work_exact :
  forall (c : net_config) (q0 : list datagram) (tr : list label) (k : cost) (s : net_state),
  run_cost c q0 tr k s -> ns_pc s = Polling ->
  steps k = (3 + N.of_nat (nc_receivers c)) * bytes_received c (received q0 tr) /\
  memory k = N.of_nat (nc_buffersize c) + (2 + N.of_nat (nc_receivers c)) * bytes_received c (received q0 tr).
Proof. exact p_C130_work_exact. Qed.
Print Assumptions C130_work_exact.

(** C130: [forward_message] with costs does what it does in Community.v. *)
Theorem C130_same_forwarding :
  forall (r : registry) (p : packet) (a : address), snd (c_forward_message r p a) = forward_message r p a.
Proof. exact p_C130_same_forwarding. Qed.
Print Assumptions C130_same_forwarding.

(** C130: Finding the community a packet is for takes at most 70 steps for the header, 20 to hash its mid and 21 for each registered community it is compared with, and 28 bytes of memory, whatever the packet contains and however long it is; the packet itself is not copied. *)
Theorem C130_forwarding :
  forall (r : registry) (p : packet) (a : address),
  steps (fst (c_forward_message r p a)) <= 90 + 21 * N.of_nat (length r) /\ memory (fst (c_forward_message r p a)) <= 28.
Proof. exact p_C130_forwarding. Qed.
Print Assumptions C130_forwarding.

(** the execution with two datagrams of NetworkProofs.v, the first one cut to four bytes: 30 bytes copied, 28 requested *)
Example ex_C130_run : run_cost ex_cfg [] ex_trace (Cost 30 28) ex_final /\ bytes_received ex_cfg [ex_d1; ex_d2] = 6 /\ received [] ex_trace = [ex_d1; ex_d2].
Proof. exact ex_C130_run. Qed.

(** while both receivers run the bound is reached: four times the buffer of four bytes *)
Example ex_C130_peak :
  exists s, run ex_cfg (net_init ex_cfg []) [LArrive ex_d1; LPoll 1; LRecv; LCall 1 ex_p1 ex_src; LCall 0 ex_p1 ex_src] s /\ held s = 16 /\
  N.of_nat (nc_buffersize ex_cfg) * (2 + N.max 1 (N.of_nat (nc_receivers ex_cfg))) = 16.
Proof. exact ex_C130_peak. Qed.

(** a packet for the second of two communities *)
Example ex_C130_forward :
  let com tag mid := {| c_tag := tag; c_mid := mid; c_on_receive := fun _ _ _ => Ok tt |} in
  let r := [(repeat x01 20, com 1%nat (repeat x01 20)); (repeat x02 20, com 2%nat (repeat x02 20))] in
  fst (c_forward_message r (Packet (x00 :: x02 :: repeat x02 20 ++ [x07; x09])) ex_src) = Cost 132 28.
Proof. exact ex_C130_forward. Qed.
