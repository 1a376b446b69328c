(** * Poison: a panic while the thread pool is built (lib.rs:54-63)

    Concurrent.v assumes that [build_global] returns. It can panic: the crate asks for any rayon 1.x (Cargo.toml:28), the number of threads comes from the
    configuration, and some of these versions assert that it is not too big. The panic leaves the closure of [THREADPOOL_START.call_once]. [std::sync::Once]
    then is poisoned: [call_once] panics, for waiting callers and for all later ones. *)
From Verif Require Import Base Codec Network Ipv8 Concurrent.
Open Scope nat_scope.

(** The state of Concurrent.v. When the closure has panicked [st_once] stays [OnceRunning], with nobody in the closure any more. *)
Record poisonable := {
  po_state : state;
  po_poisoned : bool }.

Definition poison_init : poisonable := {| po_state := initial; po_poisoned := false |}.

Inductive plabel :=
| PStep (l : label)                         (* a step of Concurrent.v *)
| PBuildPanics (t : nat) (reason : panic)   (* [build_global] panics, and with it the closure and the call of [new] *)
| POncePanics (t : nat) (reason : panic).   (* [call_once] finds the [Once] poisoned and panics *)

(** A panicking call of [new] has nothing to drop but its argument. Its thread goes on after a [catch_unwind], or has ended: both are the step [LReturn]
    of Concurrent.v. Whether rayon itself can still be used afterwards ([LInitPool]) depends on its version: it may. *)
Inductive pstep : poisonable -> plabel -> poisonable -> Prop :=
| pstep_step p l s' :
    step (po_state p) l s' ->
    pstep p (PStep l) {| po_state := s'; po_poisoned := po_poisoned p |}
(* lib.rs:57-61 *)
| pstep_build_panics p t cfg q :
    st_threads (po_state p) t = InClosure cfg ->
    pstep p (PBuildPanics t q) {| po_state := at_point (po_state p) t (Returning (Panic q)); po_poisoned := true |}
(* lib.rs:56 *)
| pstep_once_panics p t cfg q :
    po_poisoned p = true -> st_threads (po_state p) t = AtOnce cfg ->
    pstep p (POncePanics t q) {| po_state := at_point (po_state p) t (Returning (Panic q)); po_poisoned := true |}.

(** a history: any interleaving *)
Inductive prun : poisonable -> list plabel -> poisonable -> Prop :=
| prun_nil p : prun p [] p
| prun_cons p l p1 ls p2 : pstep p l p1 -> prun p1 ls p2 -> prun p (l :: ls) p2.
