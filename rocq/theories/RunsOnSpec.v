(** * RunsOnSpec: vocabulary for what happens to a listening thread once it runs *)
From Verif Require Import Base Codec Network NetSpec Ipv8 World WorldSpec Parallel.
From Verif Require Concurrent ConcurrentSpec.
Open Scope nat_scope.

(** the execution goes on from [p], with the steps [tr], to [p'] *)
Inductive continues (T : topology) (h : nat) : parallel -> list (option Concurrent.label * list event) -> parallel -> Prop :=
| continues_nil p : continues T h p [] p
| continues_cons p l evs p' tr p'' : pstep T h p l evs p' -> continues T h p' tr p'' -> continues T h p ((l, evs) :: tr) p''.

(** the thread listening on descriptor [fd] does not end in these steps *)
Definition does_not_end (fd : nat) (tr : list (option Concurrent.label * list event)) : Prop :=
  forall evs, ~ In (Some (Concurrent.LListenerStops fd), evs) tr.

(** What the library, or the operating system at the end of a process, can do with socket [k]: bind it, set it up, start it, close it, send on it. *)
Definition handles (k : nat) (e : event) : Prop :=
  match e with
  | WBindSender j _ _ _ | WBindReceiver j _ _ _ | WAddReceiver j | WStart j _ | WClose j | WSend j _ _ | WSendFails j _ _ _ => j = k
  | _ => False
  end.
(** ... or the listener on it can *)
Definition listens_on (k : nat) (e : event) : Prop := match e with WListener j _ => j = k | _ => False end.

(** the address [b] is bound on host [h] in this event *)
Definition binds_address (h : nat) (b : address) (e : event) : Prop :=
  match e with WBindSender _ h' _ b' | WBindReceiver _ h' _ b' => h' = h /\ b' = b | _ => False end.
