(** * Pkcs8: the key documents of [KeyPair::new] and [KeyPair::from_bytes]

    crypto/signature.rs:55-70 calls ring 0.14's [Ed25519KeyPair::generate_pkcs8] and [Ed25519KeyPair::from_pkcs8]. ring is a
    dependency and not in /repo; written here is its parser (ring's modules [io::der], [pkcs8] and [ec::curve25519::ed25519::signing], on
    the readers of the crate [untrusted]), function by function. A reader is a function from the unread bytes to a value and
    the bytes left, or an error; which error is not kept ([from_bytes] turns every one into [KeyRejectedError],
    signature.rs:67-68). *)
From Coq Require Import Strings.String.
From Verif Require Import Base Codec Packet EdField EdCurve Sha512 Ed25519.
Open Scope nat_scope.

Definition reader (A : Type) : Type := list byte -> option (A * list byte).

(** [untrusted::Reader::read_byte] *)
Definition read_byte : reader byte := fun b =>
  match b with
  | x :: r => Some (x, r)
  | [] => None
  end.
(** [untrusted::Reader::skip_and_get_input] *)
Definition take (n : nat) : reader (list byte) := fun b =>
  if n <=? length b then Some (firstn n b, skipn n b) else None.
(** [untrusted::Input::read_all]: everything must be read *)
Definition input_read_all {A} (f : reader A) (b : list byte) : option A :=
  match f b with
  | Some (v, []) => Some v
  | _ => None
  end.
(** [untrusted::Reader::skip_to_end] *)
Definition rest : reader (list byte) := fun b => Some (b, []).

(** ** io/der.rs *)

(** The tags used (der.rs, [enum Tag]) *)
Definition Tag_Integer : byte := x02.
Definition Tag_BitString : byte := x03.
Definition Tag_OctetString : byte := x04.
Definition Tag_Sequence : byte := x30.
Definition Tag_ContextSpecificConstructed0 : byte := xa0.
Definition Tag_ContextSpecificConstructed1 : byte := xa1.

(** the length in [read_tag_and_get_value] (der.rs): short form, or one or two bytes; not more than needed *)
Definition read_length : reader nat := fun b =>
  match read_byte b with
  | None => None
  | Some (n, b) =>
      let n := N.to_nat (N_of_byte n) in
      if n <? 128 then Some (n, b)
      else if n =? 129 then
        match read_byte b with
        | None => None
        | Some (second, b) => let second := N.to_nat (N_of_byte second) in if second <? 128 then None else Some (second, b)
        end
      else if n =? 130 then
        match read_byte b with
        | None => None
        | Some (second, b) =>
            match read_byte b with
            | None => None
            | Some (third, b) =>
                let combined := 256 * N.to_nat (N_of_byte second) + N.to_nat (N_of_byte third) in
                if combined <? 256 then None else Some (combined, b)
            end
        end
      else None
  end.

(** [read_tag_and_get_value] (der.rs): tags of more than one byte are not supported *)
Definition read_tag_and_get_value : reader (byte * list byte) := fun b =>
  match read_byte b with
  | None => None
  | Some (tag, b) =>
      if (N.land (N_of_byte tag) 31 =? 31)%N then None
      else match read_length b with
           | None => None
           | Some (n, b) =>
               match take n b with
               | None => None
               | Some (inner, b) => Some ((tag, inner), b)
               end
           end
  end.

(** [expect_tag_and_get_value] (der.rs) *)
Definition expect_tag_and_get_value (tag : byte) : reader (list byte) := fun b =>
  match read_tag_and_get_value b with
  | Some ((actual, inner), b) => if Byte.eqb tag actual then Some (inner, b) else None
  | None => None
  end.

(** [nested] (der.rs) *)
Definition nested {A} (tag : byte) (f : reader A) : reader A := fun b =>
  match expect_tag_and_get_value tag b with
  | Some (inner, b) => match input_read_all f inner with Some v => Some (v, b) | None => None end
  | None => None
  end.

(** [nonnegative_integer] (der.rs) with min_value = 0: minimal encodings of non-negative numbers *)
Definition nonnegative_integer : reader (list byte) := fun b =>
  match expect_tag_and_get_value Tag_Integer b with
  | None => None
  | Some (value, b) =>
      match value with
      | [] => None
      | [x00] => Some (value, b)
      | x00 :: r =>
          match r with
          | second :: _ => if (N_of_byte second <? 128)%N then None else Some (r, b)
          | [] => None
          end
      | first :: _ => if (128 <=? N_of_byte first)%N then None else Some (value, b)
      end
  end.
(** [small_nonnegative_integer] (der.rs) *)
Definition small_nonnegative_integer : reader byte := fun b =>
  match nonnegative_integer b with
  | Some (value, b) => match input_read_all read_byte value with Some v => Some (v, b) | None => None end
  | None => None
  end.

(** [bit_string_with_no_unused_bits] (der.rs) *)
Definition bit_string_with_no_unused_bits : reader (list byte) :=
  nested Tag_BitString (fun b =>
    match read_byte b with
    | Some (x00, b) => rest b
    | _ => None
    end).

(** ** pkcs8.rs *)

(** the algorithm identifier in the Ed25519 template: OBJECT IDENTIFIER 1.3.101.112 *)
Definition alg_id : list byte := [x06; x03; x2b; x65; x70].

(** [Reader::peek] *)
Definition peek (tag : byte) (b : list byte) : bool :=
  match b with
  | x :: _ => Byte.eqb x tag
  | [] => false
  end.

(** [unwrap_key__] (pkcs8.rs) with [Version::V2Only]: version 1 (counted from 0), algorithm, private key, attributes (ignored),
    public key (required) *)
Definition unwrap_key_inner : reader (list byte * list byte) := fun b =>
  match small_nonnegative_integer b with
  | None => None
  | Some (actual_version, b) =>
      if (1 <? N_of_byte actual_version)%N then None else
      match expect_tag_and_get_value Tag_Sequence b with
      | None => None
      | Some (actual_alg_id, b) =>
          if negb (bytes_eqb actual_alg_id alg_id) then None else
          if negb (N_of_byte actual_version =? 1)%N then None else
          match expect_tag_and_get_value Tag_OctetString b with
          | None => None
          | Some (private_key, b) =>
              match (if peek Tag_ContextSpecificConstructed0 b
                     then expect_tag_and_get_value Tag_ContextSpecificConstructed0 b else Some ([], b)) with
              | None => None
              | Some (_, b) =>
                  if negb (peek Tag_ContextSpecificConstructed1 b) then None else
                  match nested Tag_ContextSpecificConstructed1 bit_string_with_no_unused_bits b with
                  | None => None
                  | Some (public_key, b) => Some ((private_key, public_key), b)
                  end
              end
          end
      end
  end.
(** [unwrap_key] (pkcs8.rs) *)
Definition unwrap_key (input : list byte) : option (list byte * list byte) :=
  input_read_all (nested Tag_Sequence unwrap_key_inner) input.

(** [wrap_key] (pkcs8.rs) with ed25519_pkcs8_v2_template.der *)
Definition wrap_key (private_key public_key : list byte) : list byte :=
  [x30; x53; x02; x01; x01; x30; x05; x06; x03; x2b; x65; x70; x04; x22; x04; x20] ++ private_key ++
  [xa1; x23; x03; x21; x00] ++ public_key.

(** ** ec/curve25519/ed25519/signing.rs *)

(** [unwrap_pkcs8] *)
Definition unwrap_pkcs8 (input : list byte) : option (list byte * list byte) :=
  match unwrap_key input with
  | Some (private_key, public_key) =>
      match input_read_all (expect_tag_and_get_value Tag_OctetString) private_key with
      | Some seed => Some (seed, public_key)
      | None => None
      end
  | None => None
  end.
(** [Ed25519KeyPair::from_pkcs8]: the public key in the document must be that of the seed *)
Definition from_pkcs8 (input : list byte) : option (list byte) :=
  match unwrap_pkcs8 input with
  | Some (seed, public_key) => ring_from_seed_and_public_key (ring_ed25519 (fun _ => None)) seed public_key
  | None => None
  end.
(** [Ed25519KeyPair::generate_pkcs8]; [random] is what the system's generator fills the 32 bytes with, if it works *)
Definition generate_pkcs8 (random : option (list byte)) : option (list byte) :=
  match random with
  | Some seed => Some (wrap_key seed (ed_public_key seed))
  | None => None
  end.

(** Ed25519 with its key documents *)
Definition ring_pkcs8 : ed25519 := ring_ed25519 from_pkcs8.
