(** * Base: results, panics, bytes, big-endian integers

    Conventions used by every model file (see DESIGN.md):
    - a Rust [Result] is data ([Ok] / [Err]); a panic is the explicit value [Panic];
    - [u8] is Coq's 256-element type [byte]; wider unsigned integers are [N];
    - a method taking [&mut self] returns the new state together with its result. *)
From Coq Require Import Strings.String.
From Coq Require Export Strings.Byte.
From Coq Require Export List NArith ZArith Arith Lia Bool.
Export ListNotations.
Open Scope list_scope.

(** Errors. [EEof], [ECustom] and [EInvalidLength] are the bincode [ErrorKind]s this code can meet
    (Io(UnexpectedEof); Custom, from [Error::custom] and [Error::invalid_value]; Custom, from
    [Error::invalid_length]); the next three come up with field types of user structs.
    The others are the unit structs made by [create_error!] (error.rs:3-21), and I/O errors
    reported by the operating system. *)
Inductive error : Type :=
| EEof
| ECustom (msg : string)
| EInvalidLength (len : nat) (expected : string)
| EInvalidBool            (* bincode ErrorKind::InvalidBoolEncoding *)
| EInvalidTag             (* bincode ErrorKind::InvalidTagEncoding, for Option *)
| EInvalidUtf8            (* bincode ErrorKind::InvalidUtf8Encoding *)
| EInvalidChar            (* bincode ErrorKind::InvalidCharEncoding *)
| EHeaderError            (* serialization/mod.rs:18 *)
| EHeaderUnwrapError      (* community/mod.rs:17-20 *)
| EMidError               (* community/mod.rs:21 *)
| EUnknownCommunityError  (* community/mod.rs:22-25 *)
| EKeyRejectedError       (* crypto/signature.rs:12-15 *)
| EKeyGenerationError     (* crypto/signature.rs:16-19 *)
| ESigningError           (* crypto/signature.rs:20 *)
| EConversionError        (* util.rs:5 *)
| EPoolError              (* rayon ThreadPoolBuildError, lib.rs:54-67 *)
| EAddrInUse              (* std::io::Error from UdpSocket::bind *)
| EWouldBlock             (* std::io::Error from recv_from *)
| EIo                     (* any other std::io::Error *)
| EUser (code : nat).     (* an error returned by user code (Community::on_receive) *)

(** Reasons of a panic. *)
Inductive panic : Type :=
| PSliceIndex             (* slice index out of range *)
| PSubOverflow            (* usize subtraction underflow (debug), or the out-of-range
                             split_at it leads to (release): a panic in both profiles *)
| PUser (code : nat).     (* a panic inside user code *)

Inductive outcome (A : Type) : Type :=
| Ok (a : A)
| Err (e : error)
| Panic (p : panic).
Arguments Ok {A} a.
Arguments Err {A} e.
Arguments Panic {A} p.

(** Rust's [?] operator. *)
Definition bind {A B} (m : outcome A) (k : A -> outcome B) : outcome B :=
  match m with
  | Ok a => k a
  | Err e => Err e
  | Panic p => Panic p
  end.
Declare Scope outcome_scope.
Delimit Scope outcome_scope with outcome.
Notation "'let*' x ':=' m 'in' k" := (bind m (fun x => k))
  (at level 200, x pattern, m at level 100, k at level 200) : outcome_scope.
Open Scope outcome_scope.

Definition is_ok {A} (o : outcome A) : bool := match o with Ok _ => true | _ => false end.
Definition is_err {A} (o : outcome A) : bool := match o with Err _ => true | _ => false end.
Definition is_panic {A} (o : outcome A) : bool := match o with Panic _ => true | _ => false end.

(** ** Bytes *)

(** [n as u8] *)
Definition byte_of_N (n : N) : byte :=
  match Byte.of_N (n mod 256) with Some b => b | None => x00 end.
Definition N_of_byte (b : byte) : N := Byte.to_N b.

(** Readable byte-string literals: [bs [0; 2; 255]]. *)
Definition bs (l : list N) : list byte := map byte_of_N l.

(** Big-endian encoding on [k] bytes (what byteorder's [write_u16::<BigEndian>] etc. produce);
    higher bits are dropped, as a cast to the narrower type would. *)
Fixpoint be (k : nat) (n : N) : list byte :=
  match k with
  | O => []
  | S k' => be k' (n / 256) ++ [byte_of_N n]
  end.

(** Value of a big-endian byte string. *)
Definition be_value (l : list byte) : N :=
  fold_left (fun acc b => acc * 256 + N_of_byte b)%N l 0%N.

(** [&v[i..]]: panics iff [i > v.len()] *)
Definition slice_from {A} (v : list A) (i : nat) : option (list A) :=
  if i <=? length v then Some (skipn i v) else None.

(** [&v[i..j]]: panics iff [i > j] or [j > v.len()] *)
Definition slice {A} (v : list A) (i j : nat) : option (list A) :=
  if (i <=? j) && (j <=? length v) then Some (firstn (j - i) (skipn i v)) else None.

(** A slicing expression in code that would panic. *)
Definition or_panic {A} (o : option A) : outcome A :=
  match o with Some a => Ok a | None => Panic PSliceIndex end.

(** [usize::MAX] on the 64-bit targets the crate compiles for
    ([1 << 32] in varlen.rs:125 does not compile for 32-bit [usize]). *)
Definition USIZE_MAX : N := 18446744073709551615.
