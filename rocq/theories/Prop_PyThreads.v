(** * Prop_PyThreads: property theorems (statements only; proofs in PyThreadsProofs.v) *)
From Coq Require Import Strings.String Permutation.
From Verif Require Import Base Serde Codec Universe Spec Packet Client PacketFacts CryptoProofs PyBinding PyProofs PyThreads PyThreadsSpec PyThreadsProofs.
Open Scope nat_scope.

(** C132: Whatever the other threads do and however the interpreter switches between them, every thread gets for its calls, in their order, what the functions return when nobody else is there. *)
Theorem C132_answers :
  forall (C : ed25519) (programs : list (list pycall)) (tr : list action) (ts : list pythread),
  run C (start programs) tr (Some ts) ->
  Forall2 (fun program t => exists done, program = done ++ p_calls t /\ p_answers t = map (answer C) done /\ forall c, In c done -> ~ panics C c) programs ts.
Proof. exact p_C132_answers. Qed.
Print Assumptions C132_answers.

(** C132: At any moment at most one thread touches Python objects or runs Python code. *)
Theorem C132_one_at_a_time :
  forall (C : ed25519) (programs : list (list pycall)) (tr : list action) (t1 : list pythread) (t : pythread) (t2 : list pythread),
  run C (start programs) tr (Some (t1 ++ t :: t2)) -> has_lock t = true -> Forall (fun u => has_lock u = false) (t1 ++ t2).
Proof. exact p_C132_one_at_a_time. Qed.
Print Assumptions C132_one_at_a_time.

(** C132: The process dies only of a call that would panic on its own; which these are C40 says ([borrowed_create_signature] never is one, C39). *)
Theorem C132_dies_of_a_panic :
  forall (C : ed25519) (programs : list (list pycall)) (tr : list action),
  run C (start programs) tr None -> exists program c, In program programs /\ In c program /\ panics C c.
Proof. exact p_C132_dies_of_a_panic. Qed.
Print Assumptions C132_dies_of_a_panic.

(** C132: If any thread makes such a call, not all threads can come to their ends. *)
Theorem C132_one_panic_is_fatal :
  forall (C : ed25519) (programs : list (list pycall)) (tr : list action) (ts : list pythread),
  run C (start programs) tr (Some ts) -> Forall finished ts -> forall program c, In program programs -> In c program -> ~ panics C c.
Proof. exact p_C132_one_panic_is_fatal. Qed.
Print Assumptions C132_one_panic_is_fatal.

(** C132: However the interpreter switches, the threads together take at most three steps per call. *)
Theorem C132_no_livelock :
  forall (C : ed25519) (programs : list (list pycall)) (tr : list action) (p : process),
  run C (start programs) tr p -> acts tr <= 3 * list_sum (map (@length pycall) programs).
Proof. exact p_C132_no_livelock. Qed.
Print Assumptions C132_no_livelock.

(** C132: However far the threads have come, they can all come to their ends (or the process dies): no deadlock. *)
Theorem C132_no_deadlock :
  forall (C : ed25519) (programs : list (list pycall)) (tr : list action) (ts : list pythread),
  run C (start programs) tr (Some ts) ->
  exists tr' q, run C (Some ts) tr' q /\ match q with None => True | Some ts' => Forall finished ts' end.
Proof. exact p_C132_no_deadlock. Qed.
Print Assumptions C132_no_deadlock.

(** C132: While one thread's signature is being verified, however long that takes, all others can go on to their ends. *)
Theorem C132_verifying_blocks_nobody :
  forall (C : ed25519) (programs : list (list pycall)) (tr : list action) (t1 : list pythread) (t : pythread) (t2 : list pythread),
  run C (start programs) tr (Some (t1 ++ t :: t2)) -> in_verification t ->
  exists tr' q, run C (Some (t1 ++ t :: t2)) tr' q /\
    match q with
    | None => True
    | Some ts => exists t1' t2', ts = t1' ++ t :: t2' /\ length t1' = length t1 /\ Forall finished (t1' ++ t2')
    end.
Proof. exact p_C132_verifying_blocks_nobody. Qed.
Print Assumptions C132_verifying_blocks_nobody.

(** C132: But while a signature is being made, nobody gets the lock: only that thread, and verifications in the background, go on. *)
Theorem C132_signing_blocks_all :
  forall (C : ed25519) (programs : list (list pycall)) (tr : list action) (ts : list pythread) (t : pythread) (x : action) (q : process),
  run C (start programs) tr (Some ts) -> In t ts -> p_phase t = Signing -> step C (Some ts) x q ->
  x = Act /\
  match q with
  | None => True
  | Some ts' => Forall2 (fun u u' => u' = u \/ in_verification u \/ p_phase u = Signing) ts ts'
  end.
Proof. exact p_C132_signing_blocks_all. Qed.
Print Assumptions C132_signing_blocks_all.

(** Two threads: while the first is in a verification, the second signs. *)
Example ex_C132_meanwhile : exists tr ts t de,
  run toy (start [[Verify [] ex_packet]; [Sign (repeat x05 32) (repeat x05 32) [x01]; Python]]) tr (Some ts) /\
  ts = [t; PyThread Waiting [] (map (answer toy) [Sign (repeat x05 32) (repeat x05 32) [x01]; Python])] /\
  t = PyThread (Verifying de) [Verify [] ex_packet] [].
Proof. exact ex_C132_meanwhile. Qed.

(** The verification then returns what it would have returned alone: [True] and the payload. *)
Example ex_C132_answer : answer toy (Verify [] ex_packet) = VerifyAnswer (PyOk (true, [x09; x08])) /\ ~ panics toy (Verify [] ex_packet).
Proof. exact ex_C132_answer. Qed.

(** 25 bytes that one thread verifies end the process, whatever the other threads are doing. *)
Example ex_C132_deadly : panics toy (Verify [] ex_deadly) /\ exists tr, run toy (start [[Python; Python]; [Verify [] ex_deadly]]) tr None.
Proof. exact ex_C132_deadly. Qed.
