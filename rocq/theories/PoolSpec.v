(** * PoolSpec: what can be observed of a process with several listeners *)
From Verif Require Import Base Codec Network NetSpec Pool.
Open Scope nat_scope.

(** the listeners started, in order: parameters, and datagrams that were waiting already *)
Fixpoint started (tr : list pool_label) : list (net_config * list datagram) :=
  match tr with
  | [] => []
  | GStart c q :: t => (c, q) :: started t
  | GStep _ _ :: t => started t
  end.
(** what listener [i] did *)
Fixpoint trace_of (i : nat) (tr : list pool_label) : list label :=
  match tr with
  | [] => []
  | GStep j l :: t => if i =? j then l :: trace_of i t else trace_of i t
  | GStart _ _ :: t => trace_of i t
  end.
(** calls of receivers (of any listener) that were entered, and that came back (by returning or by a panic) *)
Definition is_call (l : label) : Prop := match l with LCall _ _ _ => True | _ => False end.
Fixpoint entered (tr : list pool_label) : nat :=
  match tr with
  | [] => 0
  | GStep _ (LCall _ _ _) :: t => S (entered t)
  | _ :: t => entered t
  end.
Fixpoint came_back (tr : list pool_label) : nat :=
  match tr with
  | [] => 0
  | GStep _ (LReturn _) :: t => S (came_back t)
  | GStep _ (LPanic _) :: t => S (came_back t)
  | _ :: t => came_back t
  end.
(** steps of the environment (starting listeners, datagrams arriving), and failures *)
Definition is_external (l : pool_label) : Prop :=
  match l with GStart _ _ => True | GStep _ l => is_arrival l end.
Definition is_pool_failure (l : pool_label) : Prop :=
  match l with GStart _ _ => False | GStep _ l => is_failure l end.
(** all listeners are stopped or blocked in poll *)
Definition quiet (ps : pool_state) : Prop := Forall (fun x => stopped (snd x) \/ idle (snd x)) ps.

Definition total {A} (f : A -> nat) (l : list A) : nat := fold_right (fun x n => f x + n) 0 l.
