(** * FixedSizeSpec: what the bytes of a value are in memory *)
From Verif Require Import Base FixedSize.
Open Scope nat_scope.

(** the [k] bytes of an integer: the byte at position [i] is digit [i] (from the least significant one if little endian) in base 256 *)
Definition int_bytes (e : endian) (k : nat) (v : N) : list byte :=
  let digits := map (fun i => byte_of_N ((v / 256 ^ N.of_nat i) mod 256)) (seq 0 k) in
  match e with Little => digits | Big => rev digits end.

(** an array's elements follow each other without gaps *)
Fixpoint memory (pl : platform) (t : fixed) : fval t -> list byte :=
  match t with
  | FInt k => int_bytes (pf_endian pl) k
  | FArray t _ => fun vs => concat (map (memory pl t) vs)
  end.

(** [v] is a value of the type *)
Fixpoint of_type (t : fixed) : fval t -> Prop :=
  match t with
  | FInt k => fun v => (v < 256 ^ N.of_nat k)%N
  | FArray t n => fun vs => length vs = n /\ Forall (of_type t) vs
  end.

(** what Rust guarantees of every target: alignments are positive and divide the size; those of u8 are 1 *)
Definition sane (pl : platform) : Prop :=
  pf_align pl 1 = 1 /\ forall k, 1 <= k -> 1 <= pf_align pl k /\ exists m, k = m * pf_align pl k.
(** integers have at least one byte *)
Fixpoint proper (t : fixed) : Prop :=
  match t with FInt k => 1 <= k | FArray t _ => proper t end.

Definition x86_64 : platform := {| pf_endian := Little; pf_align := fun k => if k =? 16 then 8 else k |}.
