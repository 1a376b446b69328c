(** * PyBinding: rust_ipv8_in_python/src/borrowedbundler.rs *)
From Coq Require Import Strings.String.
From Verif Require Import Base Serde Codec Universe Packet.
Open Scope nat_scope.

(** What a Python caller sees: a value, a Python exception, or a Rust panic crossing into the
    interpreter. *)
Inductive pyresult (A : Type) : Type :=
| PyOk (a : A)
| PyValueError (msg : string)
| PyKeyError (msg : string)
| PyPanic (p : panic).
Arguments PyOk {A} a.
Arguments PyValueError {A} msg.
Arguments PyKeyError {A} msg.
Arguments PyPanic {A} p.

Section WithCrypto.
Variable C : ed25519.

(** [.or(Err(exn))?] on a result: a panic is not caught by [or] *)
Definition or_else {A B} (o : outcome A) (exn : pyresult B) (k : A -> pyresult B) : pyresult B :=
  match o with
  | Ok a => k a
  | Err _ => exn
  | Panic p => PyPanic p
  end.

(** [borrowed_verify_signature] (borrowedbundler.rs:10-30); the argument [_auth] is not used.
    Releasing the GIL is not modelled. *)
Definition borrowed_verify_signature (_auth data : list byte) : pyresult (bool * list byte) :=
  let p := Packet data in
  or_else (skip_header (start_deserialize p))
    (PyValueError "Could not ignore the header")
    (fun de =>
       match verify_embedded C de with
       | (_, Panic q) => PyPanic q
       | (_, Err _) => PyPanic PSliceIndex (* never: verify returns a bool, see verify_embedded_not_err *)
       | (de', Ok result) =>
           match slice_from (packet_bytes (pntr de')) (index de') with
           | None => PyPanic PSliceIndex
           | Some rest => PyOk (result, rest)
           end
       end).

(** [borrowed_create_signature] (borrowedbundler.rs:32-53) *)
Definition borrowed_create_signature (seed key data : list byte) : pyresult (list byte) :=
  let p := Packet data in
  or_else (as_fixed_size 32 key) (PyKeyError "Key length was wrong") (fun key_fixed =>
  or_else (as_fixed_size 32 seed) (PyKeyError "Seed length was wrong") (fun seed_fixed =>
  or_else (keypair_from_seed_checked C seed_fixed key_fixed) (PyKeyError "Invalid key given") (fun ourkey =>
  or_else (packet_sign p ourkey) (PyKeyError "Sign error") (fun signed =>
  PyOk (packet_bytes signed))))).

End WithCrypto.
