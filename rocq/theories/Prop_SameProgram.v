(** * Prop_SameProgram: property theorems (statements only; proofs in SameProgramProofs.v) *)
From Coq Require Import Permutation.
From Verif Require Import Base Codec Network NetSpec NetworkProofs Ipv8 Ipv8Spec Ipv8Proofs World WorldSpec WorldProofs Compose ComposeProofs.
From Verif Require Import Parts PartsSpec PartsProofs SameProgramSpec SameProgramProofs.
Open Scope nat_scope.

(** C144. Two models of the same program. A program that makes, uses, starts and drops [IPv8] values only with their methods is a program of parts that never takes one
    apart: whatever it does in the first model it also does in the second, event by event, with the same calls of [new], the same values, listeners, pool and world. *)
Theorem C144_same_program :
  forall (T : topology) (h : nat) (tr : list (option call * list event)) (j : joint),
    jrun T h tr j -> refuses_like_an_os tr ->
    exists (tr' : list (plabel * list event)) (p : program),
      parts_run T h program_init tr' p /\
      parts_events tr' = events_of tr /\ news_of_labels tr' = news_of_calls tr /\ (forall l evs, In (l, evs) tr' -> only_methods l) /\
      pp_world p = j_world j /\ Permutation (pp_holds p) (holdings_of j) /\
      pp_once p = pr_once (j_process j) /\
      (forall n, In n (pr_pools (j_process j)) -> pp_pool p = Some n).
Proof. exact p_C144_same_program. Qed.
Print Assumptions C144_same_program.

(** the hypotheses are met: two calls of [new] fail, one value is started, another dropped, a third lives; a listener ran and ended *)
Example ex_C144_history :
  exists j, jrun two_hosts 1 (ex_joint ++ ex_joint_end) j /\ refuses_like_an_os (ex_joint ++ ex_joint_end) /\
    holdings_of j = [Value small_config 6 7] /\ pr_pools (j_process j) = [cf_threadcount small_config] /\
    length (news_of_calls (ex_joint ++ ex_joint_end)) = 5.
Proof. exact ex_C144_history. Qed.
