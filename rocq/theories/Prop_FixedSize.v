(** * Prop_FixedSize: property theorems (statements only; proofs in FixedSizeProofs.v) *)
From Verif Require Import Base Serde Codec SerdeFacts CodecFacts Packet CryptoProofs FixedSize FixedSizeSpec FixedSizeProofs.
Open Scope nat_scope.

(** C122. [as_fixed_size::<T>] succeeds exactly if the slice has the size of [T] and lies at an address that is a multiple of the alignment of [T],
    and then the value is the one of type [T] whose bytes in memory are those of the slice. *)
Theorem C122_any_type :
  forall (pl : platform) (t : fixed) (addr : nat) (data : list byte),
    (length data = size_of t /\ addr mod align_of pl t = 0 ->
       exists v, as_fixed_size_at pl t addr data = Ok v /\ of_type t v /\ memory pl t v = data) /\
    (length data <> size_of t \/ addr mod align_of pl t <> 0 ->
       as_fixed_size_at pl t addr data = Err EConversionError).
Proof. exact p_C122_any_type. Qed.
Print Assumptions C122_any_type.

(** C122. The other way round: the bytes of any value, at an aligned address, are read as that value. *)
Theorem C122_reads_back :
  forall (pl : platform) (t : fixed) (addr : nat) (v : fval t),
    of_type t v -> addr mod align_of pl t = 0 -> as_fixed_size_at pl t addr (memory pl t v) = Ok v.
Proof. exact p_C122_reads_back. Qed.
Print Assumptions C122_reads_back.

Example ex_C122_reads_back :
  of_type (FArray (FInt 2) 2) [258%N; 3%N] /\ 6 mod align_of x86_64 (FArray (FInt 2) 2) = 0 /\ memory x86_64 (FArray (FInt 2) 2) [258%N; 3%N] = [x02; x01; x03; x00] /\
  as_fixed_size_at x86_64 (FArray (FInt 2) 2) 6 [x02; x01; x03; x00] = Ok [258%N; 3%N].
Proof. exact ex_C122_reads_back. Qed.

(** C122. For arrays of bytes, which is all the crate uses itself, the address does not matter. *)
Theorem C122_bytes_anywhere :
  forall (pl : platform) (n addr : nat) (data : list byte),
    sane pl -> as_fixed_size_at pl (FArray (FInt 1) n) addr data =
      match as_fixed_size n data with Ok b => Ok (map N_of_byte b) | Err e => Err e | Panic why => Panic why end.
Proof. exact p_C122_bytes_anywhere. Qed.
Print Assumptions C122_bytes_anywhere.

(** C122, refuted: whether the conversion succeeds is a matter of the bytes. For every type with an alignment greater than one and any bytes of the right
    number, it succeeds at one address and fails at another. *)
Theorem C122_depends_only_on_the_bytes_refuted :
  forall (pl : platform) (t : fixed) (data : list byte),
    2 <= align_of pl t -> length data = size_of t ->
    exists v, as_fixed_size_at pl t (align_of pl t) data = Ok v /\ as_fixed_size_at pl t (S (align_of pl t)) data = Err EConversionError.
Proof. exact p_C122_depends_only_on_the_bytes_refuted. Qed.
Print Assumptions C122_depends_only_on_the_bytes_refuted.

Example ex_C122_depends : 2 <= align_of x86_64 (FInt 8) /\ length (repeat x07 8) = size_of (FInt 8).
Proof. exact ex_C122_depends. Qed.

(** C122. The elements of an array are what [as_fixed_size] makes of the parts of the slice. *)
Theorem C122_elements :
  forall (pl : platform) (t : fixed) (n addr : nat) (data : list byte) (vs : list (fval t)),
    sane pl -> proper t -> as_fixed_size_at pl (FArray t n) addr data = Ok vs ->
    length vs = n /\
    forall k, k < n ->
      exists v, nth_error vs k = Some v /\
        as_fixed_size_at pl t (addr + k * size_of t) (firstn (size_of t) (skipn (k * size_of t) data)) = Ok v.
Proof. exact p_C122_elements. Qed.
Print Assumptions C122_elements.

Example ex_C122_elements :
  sane x86_64 /\ proper (FInt 4) /\ as_fixed_size_at x86_64 (FArray (FInt 4) 2) 12 [x01; x00; x00; x00; xff; x00; x00; x00] = Ok [1%N; 255%N].
Proof. exact ex_C122_elements. Qed.
