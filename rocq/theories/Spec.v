(** * Spec: what the code is supposed to do, written independently of the model's functions

    Only types ([tval], the records of Codec.v) and byte literals are shared with the model; no
    (de)serialization function of the model is used here. *)
From Coq Require Import Strings.String.
From Verif Require Import Base Codec Universe.
Open Scope N_scope.

(** ** Integers and strings on the wire *)

Definition u16_bytes (n : N) : list byte := bs [n / 256; n].
Definition u32_bytes (n : N) : list byte := bs [n / 256 ^ 3; n / 256 ^ 2; n / 256; n].
Definition u64_bytes (n : N) : list byte :=
  bs [n / 256 ^ 7; n / 256 ^ 6; n / 256 ^ 5; n / 256 ^ 4; n / 256 ^ 3; n / 256 ^ 2; n / 256; n].
Definition u128_bytes (n : N) : list byte := u64_bytes (n / 256 ^ 8) ++ u64_bytes n.
Definition ascii (s : string) : list byte := list_byte_of_string s.

Definition len {A} (l : list A) : N := N.of_nat (List.length l).

(** ** Byte layouts (py-ipv8 wire format) *)

Definition weight (b : bool) (i : N) : N := if b then 2 ^ i else 0.

(** bit i has weight 2^i *)
Definition bits_layout (b : bits) : list byte :=
  bs [weight (bit0 b) 0 + weight (bit1 b) 1 + weight (bit2 b) 2 + weight (bit3 b) 3 +
      weight (bit4 b) 4 + weight (bit5 b) 5 + weight (bit6 b) 6 + weight (bit7 b) 7].

Definition address_layout (a : address) : list byte :=
  match a with
  | V4 a b c d port => [a; b; c; d] ++ u16_bytes port
  | V6 _ _ _ _ => []    (* has no layout: excluded by [encodable] *)
  end.

Definition connection_code (c : connection_type) : N :=
  match c with
  | UNKNOWN => 0
  | PUBLIC => 1
  | SYMMETRICNAT => 3
  end.

Definition auth_layout (v : bin_member) : list byte :=
  u16_bytes 74 ++ ascii "LibNaCLPK:" ++ bm_encryption_key_bin v ++ bm_public_key_bin v.

Definition request_layout (v : introduction_request) : list byte :=
  address_layout (iq_destination_address v)
  ++ address_layout (iq_source_lan_address v)
  ++ address_layout (iq_source_wan_address v)
  ++ bs [connection_code (iq_connection_type v) + (if iq_advice v then 128 else 0)]
  ++ u16_bytes (iq_identifier v)
  ++ raw_bytes (iq_extra_bytes v).

(** the tunnel flag is not sent *)
Definition response_layout (v : introduction_response) : list byte :=
  address_layout (ir_destination_address v)
  ++ address_layout (ir_source_lan_address v)
  ++ address_layout (ir_source_wan_address v)
  ++ address_layout (ir_lan_introduction_address v)
  ++ address_layout (ir_wan_introduction_address v)
  ++ bs [connection_code (ir_connection_type v)]
  ++ u16_bytes (ir_identifier v)
  ++ raw_bytes (ir_extra_bytes v).

(** a negative number z is represented by 2^bits + z *)
Definition two's_complement (bits : Z) (z : Z) : N := Z.to_N (if (z <? 0)%Z then 2 ^ bits + z else z).
(** the how-manieth variant of an enum a value is, from 0 *)
Fixpoint variant_index (vs : tys) : talts vs -> N :=
  match vs with
  | FNil => fun v => match v with end
  | FCons t r => fun v => match v with inl _ => 0 | inr y => 1 + variant_index r y end
  end.

(** UTF-8 (Unicode 3.9, D92): the encoding of a sequence of Unicode scalar values *)
Definition is_scalar (c : N) : Prop := c < 0xD800 \/ 0xE000 <= c < 0x110000.
Definition utf8_char (c : N) : list byte :=
  if c <? 0x80 then bs [c]
  else if c <? 0x800 then bs [0xC0 + c / 64; 0x80 + c mod 64]
  else if c <? 0x10000 then bs [0xE0 + c / 4096; 0x80 + c / 64 mod 64; 0x80 + c mod 64]
  else bs [0xF0 + c / 262144; 0x80 + c / 4096 mod 64; 0x80 + c / 64 mod 64; 0x80 + c mod 64].
Definition is_utf8 (l : list byte) : Prop :=
  exists chars, Forall is_scalar chars /\ l = flat_map utf8_char chars.

Fixpoint layout (t : ty) : tval t -> list byte :=
  match t with
  | TU8 => fun v => [v]
  | TU16 => u16_bytes
  | TU32 => u32_bytes
  | TU64 => u64_bytes
  | TVecU8 => fun v => u64_bytes (len v) ++ v
  | TBits => bits_layout
  | TAddress => address_layout
  | TVarLen16 => fun v => u16_bytes (len (vl16 v)) ++ vl16 v
  | TVarLen32 => fun v => u32_bytes (len (vl32 v)) ++ vl32 v
  | TVarLen64 => fun v => u64_bytes (len (vl64 v)) ++ vl64 v
  | TRawEnd => raw_bytes
  | TNested => fun v => u16_bytes (len (packet_bytes (nested_inner v))) ++ packet_bytes (nested_inner v)
  | TTime => fun v => u64_bytes (global_time v)
  | TPuncture => fun v =>
      address_layout (pu_lan_walker_address v) ++ address_layout (pu_wan_walker_address v)
      ++ u16_bytes (pu_identifier v)
  | TPunctureRequest => fun v =>
      address_layout (pr_lan_walker_address v) ++ address_layout (pr_wan_walker_address v)
      ++ u16_bytes (pr_identifier v)
  | TIntroductionRequest => request_layout
  | TIntroductionResponse => response_layout
  | TBinMember => auth_layout
  | TStruct fs => layouts fs
  | TBool => fun v => [if v then x01 else x00]
  | TI8 => fun v => bs [two's_complement 8 v]
  | TI16 => fun v => u16_bytes (two's_complement 16 v)
  | TI32 => fun v => u32_bytes (two's_complement 32 v)
  | TI64 => fun v => u64_bytes (two's_complement 64 v)
  | TU128 => u128_bytes
  | TI128 => fun v => u128_bytes (two's_complement 128 v)
  | TF32 => u32_bytes
  | TF64 => u64_bytes
  | TChar => utf8_char
  | TString => fun v => u64_bytes (len v) ++ v
  | TOption t => fun v => match v with None => [x00] | Some x => x01 :: layout t x end
  | TVec t => fun v => u64_bytes (len v) ++ flat_map (layout t) v
  | TEnum vs => fun v => u32_bytes (variant_index vs v) ++ variant_layout vs v
  end
with layouts (fs : tys) : tvals fs -> list byte :=
  match fs with
  | FNil => fun _ => []
  | FCons t r => fun v => layout t (fst v) ++ layouts r (snd v)
  end
with variant_layout (vs : tys) : talts vs -> list byte :=
  match vs with
  | FNil => fun v => match v with end
  | FCons t r => fun v => match v with inl x => layout t x | inr y => variant_layout r y end
  end.

(** The 23 header bytes. *)
Definition header_layout (mid : list byte) (message_type : byte) : list byte :=
  [x00; x02] ++ mid ++ [message_type].

(** ** Values *)

(** Ranges guaranteed by Rust's types: integers, [u8; 32] keys, vectors that fit in memory, strings that are UTF-8, enums with
    at most 2^32 variants. *)
Definition address_in_range (a : address) : Prop :=
  match a with
  | V4 _ _ _ _ port => port < 2 ^ 16
  | V6 octets port flowinfo scope => List.length octets = 16%nat /\ port < 2 ^ 16 /\ flowinfo < 2 ^ 32 /\ scope < 2 ^ 32
  end.
Definition vec_in_range (v : list byte) : Prop := len v < 2 ^ 64.

Fixpoint in_range (t : ty) : tval t -> Prop :=
  match t with
  | TU8 => fun _ => True
  | TU16 => fun v => v < 2 ^ 16
  | TU32 => fun v => v < 2 ^ 32
  | TU64 => fun v => v < 2 ^ 64
  | TVecU8 => vec_in_range
  | TBits => fun _ => True
  | TAddress => address_in_range
  | TVarLen16 => fun v => vec_in_range (vl16 v)
  | TVarLen32 => fun v => vec_in_range (vl32 v)
  | TVarLen64 => fun v => vec_in_range (vl64 v)
  | TRawEnd => fun v => vec_in_range (raw_bytes v)
  | TNested => fun v => vec_in_range (packet_bytes (nested_inner v))
  | TTime => fun v => global_time v < 2 ^ 64
  | TPuncture => fun v =>
      address_in_range (pu_lan_walker_address v) /\ address_in_range (pu_wan_walker_address v) /\
      pu_identifier v < 2 ^ 16
  | TPunctureRequest => fun v =>
      address_in_range (pr_lan_walker_address v) /\ address_in_range (pr_wan_walker_address v) /\
      pr_identifier v < 2 ^ 16
  | TIntroductionRequest => fun v =>
      address_in_range (iq_destination_address v) /\ address_in_range (iq_source_lan_address v) /\
      address_in_range (iq_source_wan_address v) /\ iq_identifier v < 2 ^ 16 /\
      vec_in_range (raw_bytes (iq_extra_bytes v))
  | TIntroductionResponse => fun v =>
      address_in_range (ir_destination_address v) /\ address_in_range (ir_source_lan_address v) /\
      address_in_range (ir_source_wan_address v) /\ address_in_range (ir_lan_introduction_address v) /\
      address_in_range (ir_wan_introduction_address v) /\ ir_identifier v < 2 ^ 16 /\
      vec_in_range (raw_bytes (ir_extra_bytes v))
  | TBinMember => fun v =>
      List.length (bm_public_key_bin v) = 32%nat /\ List.length (bm_encryption_key_bin v) = 32%nat
  | TStruct fs => in_ranges fs
  | TBool => fun _ => True
  | TI8 => fun v => (- 2 ^ 7 <= v < 2 ^ 7)%Z
  | TI16 => fun v => (- 2 ^ 15 <= v < 2 ^ 15)%Z
  | TI32 => fun v => (- 2 ^ 31 <= v < 2 ^ 31)%Z
  | TI64 => fun v => (- 2 ^ 63 <= v < 2 ^ 63)%Z
  | TU128 => fun v => v < 2 ^ 128
  | TI128 => fun v => (- 2 ^ 127 <= v < 2 ^ 127)%Z
  | TF32 => fun v => v < 2 ^ 32
  | TF64 => fun v => v < 2 ^ 64
  | TChar => is_scalar
  | TString => fun v => vec_in_range v /\ is_utf8 v
  | TOption t => fun v => match v with None => True | Some x => in_range t x end
  | TVec t => fun v => len v < 2 ^ 64 /\ Forall (in_range t) v
  | TEnum vs => fun v => variant_index vs v < 2 ^ 32 /\ variant_in_range vs v
  end
with in_ranges (fs : tys) : tvals fs -> Prop :=
  match fs with
  | FNil => fun _ => True
  | FCons t r => fun v => in_range t (fst v) /\ in_ranges r (snd v)
  end
with variant_in_range (vs : tys) : talts vs -> Prop :=
  match vs with
  | FNil => fun v => match v with end
  | FCons t r => fun v => match v with inl x => in_range t x | inr y => variant_in_range r y end
  end.

(** Values that can be put on the wire: no IPv6 address anywhere, and length-prefixed vectors short
    enough for their prefix. *)
Definition ipv4 (a : address) : Prop :=
  match a with V4 _ _ _ _ _ => True | V6 _ _ _ _ => False end.

Fixpoint encodable (t : ty) : tval t -> Prop :=
  match t with
  | TU8 | TU16 | TU32 | TU64 | TVecU8 | TBits | TVarLen64 | TRawEnd | TTime | TBinMember
  | TBool | TI8 | TI16 | TI32 | TI64 | TU128 | TI128 | TF32 | TF64 | TChar | TString => fun _ => True
  | TAddress => ipv4
  | TVarLen16 => fun v => len (vl16 v) <= 65535
  | TVarLen32 => fun v => len (vl32 v) <= 4294967295
  | TNested => fun v => len (packet_bytes (nested_inner v)) <= 65535
  | TPuncture => fun v => ipv4 (pu_lan_walker_address v) /\ ipv4 (pu_wan_walker_address v)
  | TPunctureRequest => fun v => ipv4 (pr_lan_walker_address v) /\ ipv4 (pr_wan_walker_address v)
  | TIntroductionRequest => fun v =>
      ipv4 (iq_destination_address v) /\ ipv4 (iq_source_lan_address v) /\ ipv4 (iq_source_wan_address v)
  | TIntroductionResponse => fun v =>
      ipv4 (ir_destination_address v) /\ ipv4 (ir_source_lan_address v) /\
      ipv4 (ir_source_wan_address v) /\ ipv4 (ir_lan_introduction_address v) /\
      ipv4 (ir_wan_introduction_address v)
  | TStruct fs => encodables fs
  | TOption t => fun v => match v with None => True | Some x => encodable t x end
  | TVec t => Forall (encodable t)
  | TEnum vs => variant_encodable vs
  end
with encodables (fs : tys) : tvals fs -> Prop :=
  match fs with
  | FNil => fun _ => True
  | FCons t r => fun v => encodable t (fst v) /\ encodables r (snd v)
  end
with variant_encodable (vs : tys) : talts vs -> Prop :=
  match vs with
  | FNil => fun v => match v with end
  | FCons t r => fun v => match v with inl x => encodable t x | inr y => variant_encodable r y end
  end.

(** Some address inside the value is IPv6. *)
Definition ipv6 (a : address) : Prop := ~ ipv4 a.
Fixpoint mentions_ipv6 (t : ty) : tval t -> Prop :=
  match t with
  | TAddress => ipv6
  | TPuncture => fun v => ipv6 (pu_lan_walker_address v) \/ ipv6 (pu_wan_walker_address v)
  | TPunctureRequest => fun v => ipv6 (pr_lan_walker_address v) \/ ipv6 (pr_wan_walker_address v)
  | TIntroductionRequest => fun v =>
      ipv6 (iq_destination_address v) \/ ipv6 (iq_source_lan_address v) \/ ipv6 (iq_source_wan_address v)
  | TIntroductionResponse => fun v =>
      ipv6 (ir_destination_address v) \/ ipv6 (ir_source_lan_address v) \/
      ipv6 (ir_source_wan_address v) \/ ipv6 (ir_lan_introduction_address v) \/
      ipv6 (ir_wan_introduction_address v)
  | TStruct fs => mentions_ipv6s fs
  | TOption t => fun v => match v with None => False | Some x => mentions_ipv6 t x end
  | TVec t => Exists (mentions_ipv6 t)
  | TEnum vs => variant_mentions_ipv6 vs
  | _ => fun _ => False
  end
with mentions_ipv6s (fs : tys) : tvals fs -> Prop :=
  match fs with
  | FNil => fun _ => False
  | FCons t r => fun v => mentions_ipv6 t (fst v) \/ mentions_ipv6s r (snd v)
  end
with variant_mentions_ipv6 (vs : tys) : talts vs -> Prop :=
  match vs with
  | FNil => fun v => match v with end
  | FCons t r => fun v => match v with inl x => mentions_ipv6 t x | inr y => variant_mentions_ipv6 r y end
  end.

(** Some length-prefixed vector inside the value is too long for its prefix. *)
Fixpoint oversized (t : ty) : tval t -> Prop :=
  match t with
  | TVarLen16 => fun v => 65535 < len (vl16 v)
  | TVarLen32 => fun v => 4294967295 < len (vl32 v)
  | TNested => fun v => 65535 < len (packet_bytes (nested_inner v))
  | TStruct fs => oversizeds fs
  | TOption t => fun v => match v with None => False | Some x => oversized t x end
  | TVec t => Exists (oversized t)
  | TEnum vs => variant_oversized vs
  | _ => fun _ => False
  end
with oversizeds (fs : tys) : tvals fs -> Prop :=
  match fs with
  | FNil => fun _ => False
  | FCons t r => fun v => oversized t (fst v) \/ oversizeds r (snd v)
  end
with variant_oversized (vs : tys) : talts vs -> Prop :=
  match vs with
  | FNil => fun v => match v with end
  | FCons t r => fun v => match v with inl x => oversized t x | inr y => variant_oversized r y end
  end.

(** What the other side gets: everything but the tunnel flag of introduction responses. *)
Definition clear_tunnel (v : introduction_response) : introduction_response := {|
  ir_destination_address := ir_destination_address v;
  ir_source_lan_address := ir_source_lan_address v;
  ir_source_wan_address := ir_source_wan_address v;
  ir_lan_introduction_address := ir_lan_introduction_address v;
  ir_wan_introduction_address := ir_wan_introduction_address v;
  ir_tunnel := false;
  ir_connection_type := ir_connection_type v;
  ir_identifier := ir_identifier v;
  ir_extra_bytes := ir_extra_bytes v |}.

Fixpoint transmitted (t : ty) : tval t -> tval t :=
  match t with
  | TIntroductionResponse => clear_tunnel
  | TStruct fs => transmitteds fs
  | TOption t => option_map (transmitted t)
  | TVec t => map (transmitted t)
  | TEnum vs => variant_transmitted vs
  | _ => fun v => v
  end
with transmitteds (fs : tys) : tvals fs -> tvals fs :=
  match fs with
  | FNil => fun v => v
  | FCons t r => fun v => (transmitted t (fst v), transmitteds r (snd v))
  end
with variant_transmitted (vs : tys) : talts vs -> talts vs :=
  match vs with
  | FNil => fun v => v
  | FCons t r => fun v =>
      match v with inl x => inl (transmitted t x) | inr y => inr (variant_transmitted r y) end
  end.

(** ** Classes of payload types *)

(** The type says itself where a value ends. *)
Fixpoint self_delimiting (t : ty) : bool :=
  match t with
  | TRawEnd | TIntroductionRequest | TIntroductionResponse => false
  | TStruct fs | TEnum fs => all_self_delimiting fs
  | TOption t | TVec t => self_delimiting t
  | _ => true
  end
with all_self_delimiting (fs : tys) : bool :=
  match fs with
  | FNil => true
  | FCons t r => self_delimiting t && all_self_delimiting r
  end.

(** Raw bytes occur at most as the very last field. *)
Fixpoint raw_at_end_only (t : ty) : bool :=
  match t with
  | TStruct fs => raw_at_end_onlys fs
  | TOption t => raw_at_end_only t
  | TVec t => self_delimiting t
  | TEnum vs => all_raw_at_end_only vs
  | _ => true
  end
with raw_at_end_onlys (fs : tys) : bool :=
  match fs with
  | FNil => true
  | FCons t FNil => raw_at_end_only t
  | FCons t r => self_delimiting t && raw_at_end_onlys r
  end
with all_raw_at_end_only (vs : tys) : bool :=
  match vs with
  | FNil => true
  | FCons t r => raw_at_end_only t && all_raw_at_end_only r
  end.

(** A value always ends in raw bytes, and has none before. *)
Fixpoint ends_in_raw (t : ty) : bool :=
  match t with
  | TRawEnd | TIntroductionRequest | TIntroductionResponse => true
  | TStruct fs => end_in_raw fs
  | _ => false
  end
with end_in_raw (fs : tys) : bool :=
  match fs with
  | FNil => false
  | FCons t FNil => ends_in_raw t
  | FCons t r => self_delimiting t && end_in_raw r
  end.

(** The type contains an authentication payload. *)
Fixpoint has_auth (t : ty) : bool :=
  match t with
  | TBinMember => true
  | TStruct fs | TEnum fs => have_auth fs
  | TOption t | TVec t => has_auth t
  | _ => false
  end
with have_auth (fs : tys) : bool :=
  match fs with
  | FNil => false
  | FCons t r => has_auth t || have_auth r
  end.

(** The type contains an introduction payload. *)
Fixpoint has_introduction (t : ty) : bool :=
  match t with
  | TIntroductionRequest | TIntroductionResponse => true
  | TStruct fs | TEnum fs => have_introduction fs
  | TOption t | TVec t => has_introduction t
  | _ => false
  end
with have_introduction (fs : tys) : bool :=
  match fs with
  | FNil => false
  | FCons t r => has_introduction t || have_introduction r
  end.

(** A lower bound for the number of bytes a value occupies; 0 only for types that have values of no bytes. *)
Fixpoint min_size (t : ty) : nat :=
  match t with
  | TU8 | TBits | TBool | TI8 | TChar | TOption _ => 1
  | TU16 | TI16 => 2
  | TU32 | TI32 | TF32 | TEnum _ => 4
  | TU64 | TI64 | TF64 | TTime => 8
  | TU128 | TI128 => 16
  | TVecU8 | TVarLen64 | TString | TVec _ => 8
  | TAddress => 6
  | TVarLen16 | TNested => 2
  | TVarLen32 => 4
  | TRawEnd => 0
  | TPuncture | TPunctureRequest => 14
  | TIntroductionRequest => 21
  | TIntroductionResponse => 33
  | TBinMember => 76
  | TStruct fs => min_sizes fs
  end
with min_sizes (fs : tys) : nat :=
  match fs with
  | FNil => 0
  | FCons t r => min_size t + min_sizes r
  end%nat.

(** ** Reading fields at fixed positions *)

Definition byte_at (b : list byte) (i : nat) : byte := nth i b x00.
Definition n_at (b : list byte) (i : nat) : N := N_of_byte (byte_at b i).
Definition u16_at (b : list byte) (i : nat) : N := n_at b i * 256 + n_at b (i + 1).
Definition u32_at (b : list byte) (i : nat) : N :=
  n_at b i * 256 ^ 3 + n_at b (i + 1) * 256 ^ 2 + n_at b (i + 2) * 256 + n_at b (i + 3).
Definition u64_at (b : list byte) (i : nat) : N :=
  n_at b i * 256 ^ 7 + n_at b (i + 1) * 256 ^ 6 + n_at b (i + 2) * 256 ^ 5 + n_at b (i + 3) * 256 ^ 4
  + n_at b (i + 4) * 256 ^ 3 + n_at b (i + 5) * 256 ^ 2 + n_at b (i + 6) * 256 + n_at b (i + 7).
Definition address_at (b : list byte) (i : nat) : address :=
  V4 (byte_at b i) (byte_at b (i + 1)) (byte_at b (i + 2)) (byte_at b (i + 3)) (u16_at b (i + 4)).
(** the two lowest bits: 00 and 10 unknown, 01 public, 11 symmetric NAT *)
Definition connection_at (b : list byte) (i : nat) : connection_type :=
  match n_at b i mod 4 with
  | 1 => PUBLIC
  | 3 => SYMMETRICNAT
  | _ => UNKNOWN
  end.
Definition high_bit_at (b : list byte) (i : nat) : bool := 128 <=? n_at b i.

Definition puncture_of (b : list byte) : puncture :=
  Puncture (address_at b 0) (address_at b 6) (u16_at b 12).
Definition puncture_request_of (b : list byte) : puncture_request :=
  PunctureRequest (address_at b 0) (address_at b 6) (u16_at b 12).
Definition introduction_request_of (b : list byte) : introduction_request := {|
  iq_destination_address := address_at b 0;
  iq_source_lan_address := address_at b 6;
  iq_source_wan_address := address_at b 12;
  iq_advice := high_bit_at b 18;
  iq_connection_type := connection_at b 18;
  iq_identifier := u16_at b 19;
  iq_extra_bytes := RawEnd (skipn 21 b) |}.
Definition introduction_response_of (b : list byte) : introduction_response := {|
  ir_destination_address := address_at b 0;
  ir_source_lan_address := address_at b 6;
  ir_source_wan_address := address_at b 12;
  ir_lan_introduction_address := address_at b 18;
  ir_wan_introduction_address := address_at b 24;
  ir_tunnel := false;
  ir_connection_type := connection_at b 30;
  ir_identifier := u16_at b 31;
  ir_extra_bytes := RawEnd (skipn 33 b) |}.

(** Re-encoding: what becomes of the flag byte. *)
Definition normal_connection_bits (x : N) : N := if x mod 4 =? 2 then 0 else x mod 4.
Definition normal_request_flags (x : byte) : byte :=
  byte_of_N (normal_connection_bits (N_of_byte x) + (if 128 <=? N_of_byte x then 128 else 0)).
Definition normal_response_flags (x : byte) : byte :=
  byte_of_N (normal_connection_bits (N_of_byte x)).

(** A byte vector that fits in memory ([Vec] cannot be longer). *)
Definition fits_memory (b : list byte) : Prop := len b < 2 ^ 64.

(** Two's complement: the signed number that [bits] bits with unsigned value [n] stand for. *)
Definition as_signed (bits : N) (n : N) : Z :=
  if n <? 2 ^ (bits - 1) then Z.of_N n else (Z.of_N n - 2 ^ Z.of_N bits)%Z.

(** The [k]th variant of an enum: its content, and the value of the enum with that content. *)
Fixpoint variant (vs : tys) (k : nat) : option {t : ty & tval t -> talts vs} :=
  match vs, k with
  | FNil, _ => None
  | FCons t r, O => Some (existT (fun u => tval u -> talts (FCons t r)) t inl)
  | FCons t r, S k =>
      match variant r k with
      | None => None
      | Some (existT _ u f) => Some (existT (fun u => tval u -> talts (FCons t r)) u (fun x => inr (f x)))
      end
  end.

(** The header fields a well-formed header prefix stands for. *)
Definition spec_header (mid : list byte) (message_type : byte) : header := {|
  h_size := 23; h_version := PyIPV8Header; h_mid_hash := Some mid;
  h_message_type := Some (N_of_byte message_type) |}.
