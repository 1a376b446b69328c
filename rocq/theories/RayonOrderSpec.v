(** * RayonOrderSpec: in which order datagrams are dispatched

    Vocabulary of C120. *)
From Verif Require Import Base Codec Network NetSpec Pool PoolSpec Rayon RayonSpec.
Open Scope nat_scope.

(** the listeners that received a datagram, one entry per datagram, in the order in which they did *)
Fixpoint received_by (tr : list pool_label) : list nat :=
  match tr with
  | [] => []
  | GStep i LRecv :: t => i :: received_by t
  | _ :: t => received_by t
  end.
(** the listeners that finished a datagram, one entry per datagram, in the order in which they did *)
Fixpoint finished_by (tr : list pool_label) : list nat :=
  match tr with
  | [] => []
  | GStep i LScopeEnd :: t => i :: finished_by t
  | _ :: t => finished_by t
  end.
