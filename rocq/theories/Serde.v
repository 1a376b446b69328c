(** * Serde: the part of serde 1.0 and bincode 1.1 the crate uses

    The crate only ever uses [bincode::config().big_endian()] (serialization/mod.rs:49-50, 67, 73-74,
    132, 177), i.e. no size limit, big endian, trailing bytes allowed.
    bincode and serde are dependencies: their source is not in /repo. What is modelled here is their
    documented behaviour; it is part of the trusted base (DESIGN.md). *)
From Coq Require Import Strings.String.
From Verif Require Import Base.
Open Scope N_scope.

(** ** Serialization

    A [Serialize] impl is generic in the [Serializer]; the same impl is run against bincode's byte
    writer and against its size counter. So an impl is modelled by the list of serializer calls it
    makes (or the error it returns), and the two bincode back ends interpret this list. *)
Inductive ev : Type :=
| EvU8 (b : byte)      (* serialize_u8 *)
| EvU16 (n : N)        (* serialize_u16 *)
| EvU32 (n : N)        (* serialize_u32 *)
| EvU64 (n : N)        (* serialize_u64 *)
| EvBool (b : bool)    (* serialize_bool *)
| EvI8 (z : Z)         (* serialize_i8 *)
| EvI16 (z : Z)        (* serialize_i16 *)
| EvI32 (z : Z)        (* serialize_i32 *)
| EvI64 (z : Z)        (* serialize_i64 *)
| EvU128 (n : N)       (* serialize_u128 *)
| EvI128 (z : Z)       (* serialize_i128 *)
| EvF32 (bits : N)     (* serialize_f32, of the number with these bits *)
| EvF64 (bits : N)     (* serialize_f64 *)
| EvChar (c : N)       (* serialize_char, of the character with this code point *)
| EvStr (s : list byte) (* serialize_str: the UTF-8 bytes *)
| EvNone               (* serialize_none *)
| EvSome               (* serialize_some; the calls for the value follow *)
| EvVariant (i : N)    (* serialize_{unit,newtype,tuple,struct}_variant with variant index i *)
| EvSeq (len : N)      (* serialize_seq(Some(len)) *)
| EvTuple (len : N)    (* serialize_tuple(len) *)
| EvStruct (len : N).  (* serialize_struct(name, len) *)

(** Two's complement on [k] bytes: [z as u16] etc. *)
Definition unsigned (k : nat) (z : Z) : N := Z.to_N (z mod 2 ^ (8 * Z.of_nat k)).
(** ... and back: [n as i16] etc. *)
Definition signed (k : nat) (n : N) : Z :=
  if n <? 2 ^ (8 * N.of_nat k - 1) then Z.of_N n else (Z.of_N n - 2 ^ (8 * Z.of_nat k))%Z.

(** [char::encode_utf8] of std *)
Definition encode_utf8 (code : N) : list byte :=
  let tail x := N.lor (N.land x 0x3F) 0x80 in
  map byte_of_N
    (if code <? 0x80 then [code]
     else if code <? 0x800 then [N.lor (N.land (N.shiftr code 6) 0x1F) 0xC0; tail code]
     else if code <? 0x10000 then [N.lor (N.land (N.shiftr code 12) 0x0F) 0xE0; tail (N.shiftr code 6); tail code]
     else [N.lor (N.land (N.shiftr code 18) 0x07) 0xF0; tail (N.shiftr code 12); tail (N.shiftr code 6); tail code]).

(** bincode's writer ([big_endian]): integers in fixed width, a sequence or string is prefixed with its
    length as u64, a bool or the tag of an Option is one byte, a variant index is a u32, tuples and
    structs write nothing themselves (their announced length is ignored). *)
Definition write_ev (e : ev) : list byte :=
  match e with
  | EvU8 b => [b]
  | EvU16 n => be 2 n
  | EvU32 n => be 4 n
  | EvU64 n => be 8 n
  | EvBool b => [if b then x01 else x00]
  | EvI8 z => be 1 (unsigned 1 z)
  | EvI16 z => be 2 (unsigned 2 z)
  | EvI32 z => be 4 (unsigned 4 z)
  | EvI64 z => be 8 (unsigned 8 z)
  | EvU128 n => be 16 n
  | EvI128 z => be 16 (unsigned 16 z)
  | EvF32 n => be 4 n
  | EvF64 n => be 8 n
  | EvChar c => encode_utf8 c
  | EvStr s => be 8 (N.of_nat (length s)) ++ s
  | EvNone => [x00]
  | EvSome => [x01]
  | EvVariant i => be 4 i
  | EvSeq len => be 8 len
  | EvTuple _ => []
  | EvStruct _ => []
  end.
Definition bincode_write (l : list ev) : list byte := flat_map write_ev l.

(** bincode's size counter, used by [serialized_size] (and first by [serialize]). *)
Definition size_ev (e : ev) : nat :=
  match e with
  | EvU8 _ => 1
  | EvU16 _ => 2
  | EvU32 _ => 4
  | EvU64 _ => 8
  | EvBool _ => 1
  | EvI8 _ => 1
  | EvI16 _ => 2
  | EvI32 _ => 4
  | EvI64 _ => 8
  | EvU128 _ => 16
  | EvI128 _ => 16
  | EvF32 _ => 4
  | EvF64 _ => 8
  | EvChar c => length (encode_utf8 c)
  | EvStr s => 8 + length s
  | EvNone => 1
  | EvSome => 1
  | EvVariant _ => 4
  | EvSeq _ => 8
  | EvTuple _ => 0
  | EvStruct _ => 0
  end%nat.
Definition bincode_size (l : list ev) : nat := fold_right (fun e n => size_ev e + n)%nat 0%nat l.

(** [bincode::config().big_endian().serialize(&x)]: an error of the impl surfaces in the size pass,
    before anything is written. *)
Definition bincode_serialize (s : outcome (list ev)) : outcome (list byte) :=
  let* evs := s in Ok (bincode_write evs).
(** [bincode::config().big_endian().serialized_size(&x)] *)
Definition bincode_serialized_size (s : outcome (list ev)) : outcome nat :=
  let* evs := s in Ok (bincode_size evs).

(** A struct/tuple impl serializes its fields one after the other and stops at the first error. *)
Fixpoint ser_seq (l : list (outcome (list ev))) : outcome (list ev) :=
  match l with
  | [] => Ok []
  | x :: r => let* a := x in let* b := ser_seq r in Ok (a ++ b)
  end.

(** ** Deserialization

    bincode's slice deserializer is the slice of bytes not read yet. [deserialize] allows
    bytes to be left over. *)
Definition dres (A : Type) := outcome (A * list byte).

(** [deserialize_u8 / u16 / u32 / u64] *)
Definition de_u8 (b : list byte) : dres byte :=
  match b with
  | [] => Err EEof
  | x :: r => Ok (x, r)
  end.
Definition de_uint (k : nat) (b : list byte) : dres N :=
  if (length b <? k)%nat then Err EEof
  else Ok (be_value (firstn k b), skipn k b).
Definition de_u16 := de_uint 2.
Definition de_u32 := de_uint 4.
Definition de_u64 := de_uint 8.

(** The [SeqAccess] bincode's [deserialize_tuple(len, visitor)] hands to the visitor. *)
Record access := Access { acc_len : N; acc_rest : list byte }.

(** [seq.next_element::<A>()]: [None] when the announced length is used up. *)
Definition next_element {A} (de : list byte -> dres A) (a : access) : outcome (option A * access) :=
  if acc_len a =? 0 then Ok (None, a)
  else let* (v, r) := de (acc_rest a) in Ok (Some v, Access (N.pred (acc_len a)) r).

(** [seq.next_element()?.ok_or_else(|| e)?] *)
Definition next_required {A} (de : list byte -> dres A) (e : error) (a : access)
  : outcome (A * access) :=
  let* (o, a') := next_element de a in
  match o with
  | Some v => Ok (v, a')
  | None => Err e
  end.

(** [deserializer.deserialize_tuple(len, visitor)] *)
Definition deserialize_tuple {A} (len : N) (visit : access -> outcome (A * access))
  (b : list byte) : dres A :=
  let* (v, a) := visit (Access len b) in Ok (v, acc_rest a).

(** [for _ in 0..n { res.push(seq.next_element()?.ok_or_else(|| e)?) }] with [u8] elements.
    Written by recursion on the unread bytes; [read_many_u8_step] in SerdeFacts.v shows that it is
    this loop. *)
Fixpoint read_many_u8 (e : error) (n len : N) (b : list byte) {struct b}
  : outcome (list byte * access) :=
  if n =? 0 then Ok ([], Access len b)
  else if len =? 0 then Err e
  else match b with
       | [] => Err EEof
       | x :: r => let* (l, a) := read_many_u8 e (N.pred n) (N.pred len) r in Ok (x :: l, a)
       end.

(** serde's impl of [Deserialize] for [Vec<u8>] through bincode's [deserialize_seq]: read a u64
    length, then elements until [next_element] is [None]. *)
Fixpoint read_all_u8 (len : N) (b : list byte) {struct b} : outcome (list byte * access) :=
  if len =? 0 then Ok ([], Access len b)
  else match b with
       | [] => Err EEof
       | x :: r => let* (l, a) := read_all_u8 (N.pred len) r in Ok (x :: l, a)
       end.
Definition de_vec_u8 (b : list byte) : dres (list byte) :=
  let* (len, r) := de_u64 b in
  deserialize_tuple len (fun a => read_all_u8 (acc_len a) (acc_rest a)) r.
(** serde's impl of [Serialize] for [Vec<u8>]. *)
Definition ser_vec_u8 (v : list byte) : outcome (list ev) :=
  Ok (EvSeq (N.of_nat (length v)) :: map EvU8 v).

(** ** Field types of user structs that no library payload uses *)

(** [deserialize_bool] *)
Definition de_bool (b : list byte) : dres bool :=
  let* (x, r) := de_u8 b in
  match x with
  | x00 => Ok (false, r)
  | x01 => Ok (true, r)
  | _ => Err EInvalidBool
  end.
(** [deserialize_i8 / i16 / i32 / i64] *)
Definition de_int (k : nat) (b : list byte) : dres Z :=
  let* (n, r) := de_uint k b in Ok (signed k n, r).

(** [std::str::from_utf8], the check [String::from_utf8] makes: first byte, allowed range of the second,
    continuation bytes. *)
Definition between (lo hi : N) (b : byte) : bool := (lo <=? N_of_byte b) && (N_of_byte b <=? hi).
Definition continuation : byte -> bool := between 0x80 0xBF.
Fixpoint utf8_valid (l : list byte) : bool :=
  match l with
  | [] => true
  | b0 :: r0 =>
      if between 0 0x7F b0 then utf8_valid r0
      else if between 0xC2 0xDF b0 then
        match r0 with
        | b1 :: r1 => continuation b1 && utf8_valid r1
        | _ => false
        end
      else if between 0xE0 0xEF b0 then
        match r0 with
        | b1 :: b2 :: r2 =>
            between (if N_of_byte b0 =? 0xE0 then 0xA0 else 0x80) (if N_of_byte b0 =? 0xED then 0x9F else 0xBF) b1
            && continuation b2 && utf8_valid r2
        | _ => false
        end
      else if between 0xF0 0xF4 b0 then
        match r0 with
        | b1 :: b2 :: b3 :: r3 =>
            between (if N_of_byte b0 =? 0xF0 then 0x90 else 0x80) (if N_of_byte b0 =? 0xF4 then 0x8F else 0xBF) b1
            && continuation b2 && continuation b3 && utf8_valid r3
        | _ => false
        end
      else false
  end.

(** [deserialize_string]: a u64 length, that many bytes ([get_byte_buffer] of the slice reader fails before copying when
    there are fewer), which must be UTF-8. *)
Definition de_string (b : list byte) : dres (list byte) :=
  let* (len, r) := de_u64 b in
  if N.of_nat (length r) <? len then Err EEof
  else let s := firstn (N.to_nat len) r in
       if utf8_valid s then Ok (s, skipn (N.to_nat len) r) else Err EInvalidUtf8.

(** [deserialize_char]: the first byte tells the width ([utf8_char_width]), the bytes must be UTF-8, and the result is the character
    [str::chars] finds there. *)
Definition utf8_char_width (b : byte) : nat :=
  if between 0 0x7F b then 1
  else if between 0xC2 0xDF b then 2
  else if between 0xE0 0xEF b then 3
  else if between 0xF0 0xF4 b then 4
  else 0.
Definition first_char (s : list byte) : N :=
  let n b := N_of_byte b in
  let low b := N.land (N_of_byte b) 0x3F in
  match s with
  | [a; b] => N.lor (N.shiftl (N.land (n a) 0x1F) 6) (low b)
  | [a; b; c] => N.lor (N.shiftl (N.land (n a) 0x0F) 12) (N.lor (N.shiftl (low b) 6) (low c))
  | [a; b; c; d] =>
      N.lor (N.shiftl (N.land (n a) 0x07) 18) (N.lor (N.shiftl (low b) 12) (N.lor (N.shiftl (low c) 6) (low d)))
  | _ => 0
  end.
Definition de_char (b : list byte) : dres N :=
  let* (x, r) := de_u8 b in
  match utf8_char_width x with
  | O => Err EInvalidChar
  | S O => Ok (N_of_byte x, r)
  | S k => if (length r <? k)%nat then Err EInvalidChar
           else let s := x :: firstn k r in
                if utf8_valid s then Ok (first_char s, skipn k r) else Err EInvalidChar
  end.

(** [deserialize_option] *)
Definition de_option {A} (de : list byte -> dres A) (b : list byte) : dres (option A) :=
  let* (x, r) := de_u8 b in
  match x with
  | x00 => Ok (None, r)
  | x01 => let* (v, r) := de r in Ok (Some v, r)
  | _ => Err EInvalidTag
  end.

(** serde's impl of [Deserialize] for [Vec<T>] through bincode's [deserialize_seq]: a u64 length, then that many
    elements one after the other. The capacity allocated in advance is not modelled (serde caps it), nor is running out of memory. *)
Fixpoint seq_elements {A} (de : list byte -> dres A) (n : nat) (b : list byte) : dres (list A) :=
  match n with
  | O => Ok ([], b)
  | S n => let* (x, r) := de b in let* (xs, r) := seq_elements de n r in Ok (x :: xs, r)
  end.
Definition de_vec {A} (de : list byte -> dres A) (b : list byte) : dres (list A) :=
  let* (len, r) := de_u64 b in seq_elements de (N.to_nat len) r.
