(** * RayonSpec: what can be observed of a process on a work-stealing pool *)
From Verif Require Import Base Codec Network NetSpec Pool PoolSpec Rayon.
Open Scope nat_scope.

(** what listeners and receivers do *)
Fixpoint visible (tr : list ry_label) : list pool_label :=
  match tr with
  | [] => []
  | RListener l :: t => l :: visible t
  | RWorker _ (Some l) :: t => l :: visible t
  | RWorker _ None :: t => visible t
  end.
(** doings of the outside world, and failures *)
Definition is_external_here (l : ry_label) : Prop :=
  match l with RListener l | RWorker _ (Some l) => is_external l | RWorker _ None => False end.
Definition is_failure_here (l : ry_label) : Prop :=
  match l with RListener l | RWorker _ (Some l) => is_pool_failure l | RWorker _ None => False end.

(** a listener is in the middle of dispatching a datagram *)
Definition dispatching (s : net_state) : Prop :=
  match ns_pc s with Dispatching _ _ _ _ _ _ => True | _ => False end.
(** steps of workers that nobody sees: taking, splitting and finishing jobs, looking for them *)
Fixpoint silent (tr : list ry_label) : nat :=
  match tr with
  | [] => 0
  | RWorker _ None :: t => S (silent t)
  | _ :: t => silent t
  end.
