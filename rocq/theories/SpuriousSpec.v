(** * SpuriousSpec: observations of executions with false alarms *)
From Verif Require Import Base Codec Network NetSpec Spurious.
Open Scope nat_scope.

(** what the listener and its receivers do, and what arrives; a false alarm looks like any other readiness *)
Fixpoint plain (tr : list os_label) : list label :=
  match tr with
  | [] => []
  | Do l :: t => l :: plain t
  | FalseAlarm :: t => LPoll 1 :: plain t
  | Discard _ :: t => plain t
  end.
(** the datagrams thrown away *)
Fixpoint discarded (tr : list os_label) : list datagram :=
  match tr with
  | [] => []
  | Discard d :: t => d :: discarded t
  | _ :: t => discarded t
  end.
(** [a] is [b] with some elements left out *)
Inductive subsequence {A} : list A -> list A -> Prop :=
| sub_nil : subsequence [] []
| sub_keep x a b : subsequence a b -> subsequence (x :: a) (x :: b)
| sub_skip x a b : subsequence a b -> subsequence a (x :: b).
