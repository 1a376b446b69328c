(** * SameProgramSpec: vocabulary for comparing the models of a program that only calls [IPv8]'s methods *)
From Verif Require Import Base Codec Network NetSpec Ipv8 Ipv8Spec World WorldSpec Compose Parts.
Open Scope nat_scope.

(** the values of [IPv8] that a process has, with their sockets (numbered as in Compose.v) *)
Fixpoint values (is : list (option ipv8)) (ns : list (option (nat * nat))) : list holding :=
  match is, ns with
  | Some v :: is', Some (a, b) :: ns' => Value (iv_config v) a b :: values is' ns'
  | _ :: is', _ :: ns' => values is' ns'
  | _, _ => []
  end.
Definition holdings_of (j : joint) : list holding := values (pr_instances (j_process j)) (j_instances j) ++ map Listener (j_listeners j).

(** The configurations [IPv8::new] was called with, in order, in both models. *)
Definition news_of_calls (tr : list (option call * list event)) : list config :=
  flat_map (fun x => match fst x with Some (CNew _ cfg) => [cfg] | _ => [] end) tr.
Definition news_of_labels (tr : list (plabel * list event)) : list config :=
  flat_map (fun x => match fst x with PNew cfg _ => [cfg] | _ => [] end) tr.
(** The operating system refuses to bind for its own reasons: with an I/O error (util.rs:13), not with the error of rayon's pool. *)
Definition refuses_like_an_os (tr : list (option call * list event)) : Prop :=
  forall env cfg evs a, In (Some (CNew env cfg), evs) tr -> env_refuse env a <> Some EPoolError.
(** Steps a program can take that only calls the methods of [IPv8] values and lets them go out of scope. *)
Definition only_methods (l : plabel) : Prop :=
  match l with
  | PNewReceiver _ _ | PNewSender _ _ | PTakeApart _ _ _ | PPutTogether _ _ _ | PStartReceiver _ _ | PUseRayon _ => False
  | PDrop x => exists cfg r s, x = Value cfg r s
  | _ => True
  end.
