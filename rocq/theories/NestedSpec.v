(** * NestedSpec: vocabulary of C131 *)
From Verif Require Import Base Nested.
Open Scope nat_scope.

(** Code that, having locked [held], handles its locks with care: it locks in ascending order, unlocks what it has locked before it returns, and has nothing locked while it is in rayon. *)
Fixpoint careful (held : list nat) (c : code) : Prop :=
  match c with
  | Return => held = []
  | Work k => careful held k
  | Lock m k => Forall (fun m' => m' < m) held /\ careful (m :: held) k
  | Unlock m k => In m held /\ careful (remove Nat.eq_dec m held) k
  | Join a b k => held = [] /\ careful [] a /\ careful [] b /\ careful [] k
  end.

(** Code that does not use rayon. *)
Fixpoint no_rayon (c : code) : Prop :=
  match c with
  | Return => True
  | Work k | Lock _ k | Unlock _ k => no_rayon k
  | Join _ _ _ => False
  end.

(** The job of a datagram whose receivers all handle locks with care. *)
Definition careful_datagram (c : code) : Prop := exists rs d, Forall (careful []) rs /\ dispatch rs d /\ c = scope d.

(** All is done: every datagram was received and dealt with, and the other threads have come to their ends. *)
Definition all_done (s : state) : Prop :=
  s_available s = [] /\ Forall (fun t => t_stack t = []) (s_threads s) /\ Forall (fun l => l = Listener None []) (s_listeners s).

(** Job [j] was forked, directly or not, by job [root], and something still waits for it. *)
Inductive part_of (ts : list thread) (root : nat) : nat -> Prop :=
| part_root : part_of ts root root
| part_fork f j k : In f (frames ts) -> part_of ts root (f_job f) -> In (j, k) (f_joins f) -> part_of ts root j.

(** No mutex is locked twice. *)
Definition exclusive (s : state) : Prop := NoDup (concat (map f_held (frames (s_threads s)))).

(** Steps that code takes, with all that is forked. *)
Fixpoint length_of (c : code) : nat :=
  match c with
  | Return => 1
  | Work k | Lock _ k | Unlock _ k => 1 + length_of k
  | Join a b k => 2 + length_of a + length_of b + length_of k
  end.
(** With receiving the datagram, taking its job and unblocking the listener: *)
Definition steps_for (others : list code) (listeners : list (list code)) : nat :=
  list_sum (map length_of others) + list_sum (map (fun c => 3 + length_of c) (concat listeners)).
