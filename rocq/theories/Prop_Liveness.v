(** * Prop_Liveness: property theorems (statements only; proofs in LivenessProofs.v) *)
From Verif Require Import Base Codec Network NetSpec NetworkProofs LivenessSpec LivenessProofs.
Open Scope nat_scope.

(** C99. While traffic goes on, no datagram waits for ever: in every infinite execution without failures, with a fair
    scheduler and infinitely many arrivals, each datagram that ever arrived - the k-th one - is at some time handed to
    every receiver, as that receiver's k-th packet, however large the backlog. (C52 says that this is no longer so once
    traffic stops.) *)
Theorem C99_no_datagram_waits_forever :
  forall (c : net_config) (q0 : list datagram) (st : nat -> net_state) (lb : nat -> label),
    infinite_run c q0 st lb -> never_fails lb -> traffic_goes_on lb -> fair c st lb -> prompt_poll st lb ->
    forall (n k : nat) (d : datagram) (r : nat),
      nth_error (q0 ++ arrivals (trace_upto lb n)) k = Some d -> r < nc_receivers c ->
      exists m, nth_error (calls r (trace_upto lb m)) k = Some (packet_of c d).
Proof. exact p_C99_no_datagram_waits_forever. Qed.
Print Assumptions C99_no_datagram_waits_forever.

(** C99. Without a poll timeout in the configuration ([Config.pollinterval] is [None]) the assumption about poll holds by itself. *)
Theorem C99_prompt_without_timeout :
  forall (c : net_config) (q0 : list datagram) (st : nat -> net_state) (lb : nat -> label),
    infinite_run c q0 st lb -> nc_has_timeout c = false -> prompt_poll st lb.
Proof. exact p_C99_prompt_without_timeout. Qed.
Print Assumptions C99_prompt_without_timeout.

(** C99: an infinite execution that meets the assumptions, with a datagram in the socket that no readiness is ever reported for
    separately *)
Example ex_C99_run :
  infinite_run ex_live_cfg [ex_live_d] ex_live_st ex_live_lb /\ never_fails ex_live_lb /\
  traffic_goes_on ex_live_lb /\ fair ex_live_cfg ex_live_st ex_live_lb /\ prompt_poll ex_live_st ex_live_lb /\
  nth_error ([ex_live_d] ++ arrivals (trace_upto ex_live_lb 8)) 2 = Some ex_live_d.
Proof. exact ex_C99_run. Qed.
