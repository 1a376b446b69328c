(** * PyThreads: the Python functions called from several Python threads

    rust_ipv8_in_python/src/borrowedbundler.rs again, with Python's global interpreter lock. The interpreter executes Python code, and calls extension functions, only in the thread that has the
    lock; between bytecodes it may hand the lock to any other thread. [borrowed_verify_signature] releases it while the signature is verified ([py.allow_threads], 23-27), [borrowed_create_signature] keeps it.
    pyo3 0.7 does not catch panics: one that leaves an extension function crosses a C stack frame, which ends the process (or is undefined behaviour); here everything stops.
    Simplifications: threads are there from the beginning; what Python code does between the calls does not matter (it is one step); no memory errors in the interpreter; that several steps of one function under the lock are one step here
    is not observable, since nobody else runs meanwhile but verifications. *)
From Coq Require Import Strings.String.
From Verif Require Import Base Serde Codec Universe Packet PyBinding.
Open Scope nat_scope.

Inductive pycall :=
| Verify (auth data : list byte)
| Sign (seed key data : list byte)
| Python.                                (* anything that is not about this extension *)

Inductive pyanswer :=
| VerifyAnswer (r : pyresult (bool * list byte))
| SignAnswer (r : pyresult (list byte))
| PythonAnswer.

Inductive phase :=
| Waiting                                          (* in Python code, without the lock *)
| Running                                          (* in Python code, with the lock *)
| Verifying (de : deserializer)                    (* in [de.verify()], without the lock *)
| Verified (result : bool) (de : deserializer)     (* wants the lock back *)
| Returning (result : bool) (de : deserializer)    (* has it *)
| Signing.                                         (* in [borrowed_create_signature], with the lock *)

Record pythread := PyThread {
  p_phase : phase;
  p_calls : list pycall;        (* still to be made; the one being made first *)
  p_answers : list pyanswer }.  (* what the calls returned or raised, so far *)

Definition has_lock (t : pythread) : bool :=
  match p_phase t with
  | Running | Returning _ _ | Signing => true
  | _ => false
  end.

Section WithCrypto.
Variable C : ed25519.

(** What a thread does; [None]: it panicked. *)
Inductive action := Acquire | Drop | Act.
Inductive moves : pythread -> action -> option pythread -> Prop :=
(** Python's interpreter *)
| moves_acquire cs a : moves (PyThread Waiting cs a) Acquire (Some (PyThread Running cs a))
| moves_drop cs a : moves (PyThread Running cs a) Drop (Some (PyThread Waiting cs a))
| moves_python cs a : moves (PyThread Running (Python :: cs) a) Act (Some (PyThread Running cs (a ++ [PythonAnswer])))
(** [borrowed_verify_signature] (borrowedbundler.rs:10-30): up to [allow_threads] *)
| moves_verify auth data cs a :
    moves (PyThread Running (Verify auth data :: cs) a) Act
      match skip_header (start_deserialize (Packet data)) with
      | Ok de => Some (PyThread (Verifying de) (Verify auth data :: cs) a)
      | Err _ => Some (PyThread Running cs (a ++ [VerifyAnswer (PyValueError "Could not ignore the header")]))
      | Panic _ => None
      end
(** in [allow_threads] (24-27) *)
| moves_verifying de cs a :
    moves (PyThread (Verifying de) cs a) Act
      match verify_embedded C de with
      | (de', Ok result) => Some (PyThread (Verified result de') cs a)
      | _ => None
      end
| moves_back result de cs a : moves (PyThread (Verified result de) cs a) Acquire (Some (PyThread (Returning result de) cs a))
(** 29 *)
| moves_return result de c cs a :
    moves (PyThread (Returning result de) (c :: cs) a) Act
      match slice_from (packet_bytes (pntr de)) (index de) with
      | None => None
      | Some rest => Some (PyThread Running cs (a ++ [VerifyAnswer (PyOk (result, rest))]))
      end
(** [borrowed_create_signature] (32-53) *)
| moves_sign seed key data cs a :
    moves (PyThread Running (Sign seed key data :: cs) a) Act (Some (PyThread Signing (Sign seed key data :: cs) a))
| moves_signed seed key data cs a :
    moves (PyThread Signing (Sign seed key data :: cs) a) Act
      match borrowed_create_signature C seed key data with
      | PyPanic _ => None
      | r => Some (PyThread Running cs (a ++ [SignAnswer r]))
      end.

(** A process: its threads, or nothing any more. *)
Definition process := option (list pythread).

Inductive step : process -> action -> process -> Prop :=
| step_moves t1 t x t' t2 :
    moves t x (Some t') -> (x = Acquire -> Forall (fun t => has_lock t = false) (t1 ++ t2)) ->
    step (Some (t1 ++ t :: t2)) x (Some (t1 ++ t' :: t2))
| step_dies t1 t x t2 :
    moves t x None -> step (Some (t1 ++ t :: t2)) x None.

Inductive run : process -> list action -> process -> Prop :=
| run_none p : run p [] p
| run_more p tr p' x p'' : run p tr p' -> step p' x p'' -> run p (tr ++ [x]) p''.

(** Threads about to make these calls; none has the lock. *)
Definition start (programs : list (list pycall)) : process := Some (map (fun cs => PyThread Waiting cs []) programs).

End WithCrypto.
