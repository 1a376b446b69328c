(** * PyThreadsSpec: vocabulary of C132 *)
From Verif Require Import Base Serde Codec Universe Packet PyBinding PyThreads.
Open Scope nat_scope.

(** What a call returns if nobody else is there (PyBinding.v). *)
Definition answer (C : ed25519) (c : pycall) : pyanswer :=
  match c with
  | Verify auth data => VerifyAnswer (borrowed_verify_signature C auth data)
  | Sign seed key data => SignAnswer (borrowed_create_signature C seed key data)
  | Python => PythonAnswer
  end.
(** ... if it returns at all *)
Definition panics (C : ed25519) (c : pycall) : Prop :=
  exists p, answer C c = VerifyAnswer (PyPanic p) \/ answer C c = SignAnswer (PyPanic p).

(** A thread has come to the end of its program. *)
Definition finished (t : pythread) : Prop := p_calls t = [] /\ (p_phase t = Waiting \/ p_phase t = Running).

Definition in_verification (t : pythread) : Prop := exists de, p_phase t = Verifying de.

(** Steps that are not the interpreter's handing over the lock *)
Fixpoint acts (tr : list action) : nat :=
  match tr with
  | [] => 0
  | Act :: r => S (acts r)
  | _ :: r => acts r
  end.
