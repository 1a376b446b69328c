(** * FixedSize: [as_fixed_size] for every type of integers and arrays
    [as_fixed_size::<T>] (rust_ipv8/src/util.rs:9-17) reinterprets a slice, without copying, as a [T]. Packet.v has the case [T = [u8; n]], which is all the
    crate itself uses; the function is public and generic in [T: zerocopy::FromBytes].
    zerocopy 0.2.4: [LayoutVerified::<_, T>::new(data)] is [None] unless the address of the slice is a multiple of [align_of::<T>()] and its length is
    [size_of::<T>()]; [into_ref] then is a cast of the pointer.
    Simplified: [T] is an unsigned integer, an array, or a [#[repr(transparent)]] wrapper of these (wrappers are not seen in the model; a signed integer
    is its bits). Structs with several fields are left out. *)
From Verif Require Import Base.
Open Scope nat_scope.

Inductive fixed : Type :=
| FInt (bytes : nat)                (* u8, u16, u32, u64, u128, usize *)
| FArray (t : fixed) (n : nat).     (* [T; n] *)

Inductive endian := Little | Big.
(** the target: its byte order and the alignment of its integers (of u64 and u128 it differs between targets) *)
Record platform := { pf_endian : endian; pf_align : nat -> nat }.

(** [std::mem::size_of], [std::mem::align_of] *)
Fixpoint size_of (t : fixed) : nat :=
  match t with FInt k => k | FArray t n => n * size_of t end.
Fixpoint align_of (pl : platform) (t : fixed) : nat :=
  match t with FInt k => pf_align pl k | FArray t _ => align_of pl t end.

(** values *)
Fixpoint fval (t : fixed) : Type :=
  match t with FInt _ => N | FArray t _ => list (fval t) end.

Definition int_of (e : endian) (b : list byte) : N :=
  match e with
  | Little => fold_right (fun x acc => (N_of_byte x + 256 * acc)%N) 0%N b
  | Big => fold_left (fun acc x => (256 * acc + N_of_byte x)%N) b 0%N
  end.

Fixpoint pieces (size n : nat) (b : list byte) : list (list byte) :=
  match n with O => [] | S n => firstn size b :: pieces size n (skipn size b) end.

(** the value a reference to the bytes [b] has *)
Fixpoint reinterpret (pl : platform) (t : fixed) : list byte -> fval t :=
  match t with
  | FInt _ => int_of (pf_endian pl)
  | FArray t n => fun b => map (reinterpret pl t) (pieces (size_of t) n b)
  end.

(** [as_fixed_size] of a slice of bytes [data] at the address [addr] (util.rs:9-17) *)
Definition as_fixed_size_at (pl : platform) (t : fixed) (addr : nat) (data : list byte) : outcome (fval t) :=
  if (addr mod align_of pl t =? 0) && (length data =? size_of t)
  then Ok (reinterpret pl t data)
  else Err EConversionError.
