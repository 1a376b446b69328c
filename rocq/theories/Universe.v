(** * Universe: the payload types that can be put into a packet

    [Packet::add<T>] and [PacketDeserializer::next_payload<T>] (serialization/mod.rs:45-69, 172-179) are
    generic in the payload type [T]. The types [T] considered are the library's own (de)serializable
    types and every struct a user derives from them with [#[derive(Serialize, Deserialize)]],
    nested to any depth (as the test payloads in serialization/mod.rs:192-208,
    rawend.rs:63-66, nestedpayload.rs:58-90 do). No library payload uses [bool], signed integers, [String], [Option],
    [Vec<T>], enums, floats, [char] and 128-bit integers, but a user's struct may. Simplification: what else serde supports
    (maps, types with hand-written impls; see Custom.v) is not in the universe. *)
From Coq Require Import Strings.String.
From Verif Require Import Base Serde Codec.
Open Scope N_scope.

Inductive ty : Type :=
| TU8 | TU16 | TU32 | TU64
| TVecU8                     (* Vec<u8>; also the derived impls of Packet, serialization/mod.rs:20-22 *)
| TBits | TAddress
| TVarLen16 | TVarLen32 | TVarLen64
| TRawEnd | TNested
| TTime | TPuncture | TPunctureRequest
| TIntroductionRequest | TIntroductionResponse
| TBinMember
| TStruct (fs : tys)         (* #[derive(Serialize, Deserialize)] struct { fields }; tuples and arrays
                                are written and read in the same way *)
| TBool
| TI8 | TI16 | TI32 | TI64
| TU128 | TI128
| TF32 | TF64                (* the bits of the number, [f32::to_bits] *)
| TChar                      (* char: its code point *)
| TString                    (* String *)
| TOption (t : ty)           (* Option<T> *)
| TVec (t : ty)              (* Vec<T>; for T = u8 the same as TVecU8 *)
| TEnum (vs : tys)           (* #[derive(Serialize, Deserialize)] enum: one type per variant, TStruct of its fields (a unit
                                variant has none) *)
with tys : Type :=
| FNil
| FCons (t : ty) (fs : tys).

Scheme ty_mut := Induction for ty Sort Prop
  with tys_mut := Induction for tys Sort Prop.
Combined Scheme ty_tys_ind from ty_mut, tys_mut.

(** The Rust type a code stands for. *)
Fixpoint tval (t : ty) : Type :=
  match t with
  | TU8 => byte
  | TU16 => N
  | TU32 => N
  | TU64 => N
  | TVecU8 => list byte
  | TBits => bits
  | TAddress => address
  | TVarLen16 => varlen16
  | TVarLen32 => varlen32
  | TVarLen64 => varlen64
  | TRawEnd => rawend
  | TNested => nested_packet
  | TTime => time_distribution
  | TPuncture => puncture
  | TPunctureRequest => puncture_request
  | TIntroductionRequest => introduction_request
  | TIntroductionResponse => introduction_response
  | TBinMember => bin_member
  | TStruct fs => tvals fs
  | TBool => bool
  | TI8 => Z
  | TI16 => Z
  | TI32 => Z
  | TI64 => Z
  | TU128 => N
  | TI128 => Z
  | TF32 => N
  | TF64 => N
  | TChar => N
  | TString => list byte     (* a String is a vector of bytes that is always valid UTF-8 *)
  | TOption t => option (tval t)
  | TVec t => list (tval t)
  | TEnum vs => talts vs
  end
with tvals (fs : tys) : Type :=
  match fs with
  | FNil => unit
  | FCons t r => (tval t * tvals r)%type
  end
with talts (vs : tys) : Type :=
  match vs with
  | FNil => Empty_set
  | FCons t r => (tval t + talts r)%type
  end.

Fixpoint nfields (fs : tys) : nat :=
  match fs with
  | FNil => 0%nat
  | FCons _ r => S (nfields r)
  end.

(** [Serialize::serialize]: the library's impls, and the derived one for structs (announce the number
    of fields, then each field in order) and enums (the index of the variant, then its fields). *)
Fixpoint ser (t : ty) : tval t -> outcome (list ev) :=
  match t with
  | TU8 => fun v => Ok [EvU8 v]
  | TU16 => fun v => Ok [EvU16 v]
  | TU32 => fun v => Ok [EvU32 v]
  | TU64 => fun v => Ok [EvU64 v]
  | TVecU8 => ser_vec_u8
  | TBits => ser_bits
  | TAddress => ser_address
  | TVarLen16 => ser_varlen16
  | TVarLen32 => ser_varlen32
  | TVarLen64 => ser_varlen64
  | TRawEnd => ser_rawend
  | TNested => ser_nested
  | TTime => ser_time
  | TPuncture => ser_puncture
  | TPunctureRequest => ser_puncture_request
  | TIntroductionRequest => ser_introduction_request
  | TIntroductionResponse => ser_introduction_response
  | TBinMember => ser_bin_member
  | TStruct fs => fun v =>
      let* r := sers fs v in Ok (EvStruct (N.of_nat (nfields fs)) :: r)
  | TBool => fun v => Ok [EvBool v]
  | TI8 => fun v => Ok [EvI8 v]
  | TI16 => fun v => Ok [EvI16 v]
  | TI32 => fun v => Ok [EvI32 v]
  | TI64 => fun v => Ok [EvI64 v]
  | TU128 => fun v => Ok [EvU128 v]
  | TI128 => fun v => Ok [EvI128 v]
  | TF32 => fun v => Ok [EvF32 v]
  | TF64 => fun v => Ok [EvF64 v]
  | TChar => fun v => Ok [EvChar v]
  | TString => fun v => Ok [EvStr v]
  | TOption t => fun v =>
      match v with
      | None => Ok [EvNone]
      | Some x => let* r := ser t x in Ok (EvSome :: r)
      end
  | TVec t => fun v =>
      let* r := ser_seq (map (ser t) v) in Ok (EvSeq (N.of_nat (length v)) :: r)
  | TEnum vs => seralts vs 0
  end
with sers (fs : tys) : tvals fs -> outcome (list ev) :=
  match fs with
  | FNil => fun _ => Ok []
  | FCons t r => fun v =>
      let* a := ser t (fst v) in
      let* b := sers r (snd v) in
      Ok (a ++ b)
  end
with seralts (vs : tys) : N -> talts vs -> outcome (list ev) :=
  match vs with
  | FNil => fun _ v => match v with end
  | FCons t r => fun i v =>
      match v with
      | inl x => let* e := ser t x in Ok (EvVariant i :: e)
      | inr y => seralts r (N.succ i) y
      end
  end.

(** [Deserialize::deserialize]: the library's impls, and the derived one for structs
    ([deserialize_struct], in bincode a tuple of as many elements as there are fields) and enums ([deserialize_enum]:
    a u32 variant index, unknown ones are [Error::invalid_value], then the variant's fields). *)
Fixpoint de (t : ty) : list byte -> dres (tval t) :=
  match t with
  | TU8 => de_u8
  | TU16 => de_u16
  | TU32 => de_u32
  | TU64 => de_u64
  | TVecU8 => de_vec_u8
  | TBits => de_bits
  | TAddress => de_address
  | TVarLen16 => de_varlen16
  | TVarLen32 => de_varlen32
  | TVarLen64 => de_varlen64
  | TRawEnd => de_rawend
  | TNested => de_nested
  | TTime => de_time
  | TPuncture => de_puncture
  | TPunctureRequest => de_puncture_request
  | TIntroductionRequest => de_introduction_request
  | TIntroductionResponse => de_introduction_response
  | TBinMember => de_bin_member
  | TStruct fs => deserialize_tuple (N.of_nat (nfields fs)) (des fs 0)
  | TBool => de_bool
  | TI8 => de_int 1
  | TI16 => de_int 2
  | TI32 => de_int 4
  | TI64 => de_int 8
  | TU128 => de_uint 16
  | TI128 => de_int 16
  | TF32 => de_uint 4
  | TF64 => de_uint 8
  | TChar => de_char
  | TString => de_string
  | TOption t => de_option (de t)
  | TVec t => de_vec (de t)
  | TEnum vs => fun b => let* (i, r) := de_u32 b in dealts vs i r
  end
with des (fs : tys) : nat -> access -> outcome (tvals fs * access) :=
  match fs with
  | FNil => fun _ s => Ok (tt, s)
  | FCons t r => fun i s =>
      let* (x, s) := next_required (de t) (EInvalidLength i "struct") s in
      let* (xs, s) := des r (S i) s in
      Ok ((x, xs), s)
  end
with dealts (vs : tys) : N -> list byte -> dres (talts vs) :=
  match vs with
  | FNil => fun _ _ => Err (ECustom "invalid value: variant index")
  | FCons t r => fun i b =>
      if i =? 0 then let* (x, b) := de t b in Ok (inl x, b)
      else let* (y, b) := dealts r (N.pred i) b in Ok (inr y, b)
  end.
