(** * Equality: [==] on payloads, headers and packets

    All of the crate's public value types derive [PartialEq] (the list is beside each definition); tests and users compare what was received with what was sent by [==]. Derived impls compare the variants, then field by field,
    in order. Simplification: a user's type is compared by a derived impl as well. *)
From Verif Require Import Base Serde Codec Universe Packet.
Open Scope N_scope.

(** [impl PartialEq for f32/f64]: IEEE 754 comparison of numbers given by their bits, [e] bits of exponent, [m] of mantissa. *)
Definition float_exponent (e m bits : N) : N := (bits / 2 ^ m) mod 2 ^ e.
Definition float_mantissa (m bits : N) : N := bits mod 2 ^ m.
Definition float_nan (e m bits : N) : bool := (float_exponent e m bits =? 2 ^ e - 1) && negb (float_mantissa m bits =? 0).
Definition float_zero (e m bits : N) : bool := (float_exponent e m bits =? 0) && (float_mantissa m bits =? 0).
Definition float_eq (e m a b : N) : bool :=
  if float_nan e m a || float_nan e m b then false
  else if float_zero e m a && float_zero e m b then true
  else a =? b.

(** [impl PartialEq for Vec<T>]: the same length, the same elements *)
Fixpoint vec_eq {A} (eq : A -> A -> bool) (a b : list A) : bool :=
  match a, b with
  | [], [] => true
  | x :: a', y :: b' => eq x y && vec_eq eq a' b'
  | _, _ => false
  end.
Definition option_eq {A} (eq : A -> A -> bool) (a b : option A) : bool :=
  match a, b with
  | None, None => true
  | Some x, Some y => eq x y
  | _, _ => false
  end.
Definition bytes_eq : list byte -> list byte -> bool := vec_eq Byte.eqb.

(** bits.rs:12 *)
Definition bits_eq (a b : bits) : bool :=
  Bool.eqb (bit0 a) (bit0 b) && Bool.eqb (bit1 a) (bit1 b) && Bool.eqb (bit2 a) (bit2 b) && Bool.eqb (bit3 a) (bit3 b) &&
  Bool.eqb (bit4 a) (bit4 b) && Bool.eqb (bit5 a) (bit5 b) && Bool.eqb (bit6 a) (bit6 b) && Bool.eqb (bit7 a) (bit7 b).
(** connectiontype.rs:3 *)
Definition connection_type_eq (a b : connection_type) : bool :=
  match a, b with
  | PUBLIC, PUBLIC | SYMMETRICNAT, SYMMETRICNAT | UNKNOWN, UNKNOWN => true
  | _, _ => false
  end.
(** address.rs:12; [SocketAddr], [SocketAddrV4] and [SocketAddrV6] (std::net) compare all their fields, flow information and scope included *)
Definition address_eq (x y : address) : bool :=
  match x, y with
  | V4 a b c d p, V4 a' b' c' d' p' => Byte.eqb a a' && Byte.eqb b b' && Byte.eqb c c' && Byte.eqb d d' && (p =? p')
  | V6 o p f s, V6 o' p' f' s' => bytes_eq o o' && (p =? p') && (f =? f') && (s =? s')
  | _, _ => false
  end.
(** varlen.rs:10, 16, 22; rawend.rs:8; serialization/mod.rs:20; nestedpayload.rs:12 *)
Definition varlen16_eq (a b : varlen16) : bool := bytes_eq (vl16 a) (vl16 b).
Definition varlen32_eq (a b : varlen32) : bool := bytes_eq (vl32 a) (vl32 b).
Definition varlen64_eq (a b : varlen64) : bool := bytes_eq (vl64 a) (vl64 b).
Definition rawend_eq (a b : rawend) : bool := bytes_eq (raw_bytes a) (raw_bytes b).
Definition packet_eq (a b : packet) : bool := bytes_eq (packet_bytes a) (packet_bytes b).
Definition nested_eq (a b : nested_packet) : bool := packet_eq (nested_inner a) (nested_inner b).
(** timedistributionpayload.rs:5 *)
Definition time_eq (a b : time_distribution) : bool := global_time a =? global_time b.
(** puncturepayload.rs:7 *)
Definition puncture_eq (a b : puncture) : bool :=
  address_eq (pu_lan_walker_address a) (pu_lan_walker_address b) && address_eq (pu_wan_walker_address a) (pu_wan_walker_address b) &&
  (pu_identifier a =? pu_identifier b).
(** puncturerequestpayload.rs:7 *)
Definition puncture_request_eq (a b : puncture_request) : bool :=
  address_eq (pr_lan_walker_address a) (pr_lan_walker_address b) && address_eq (pr_wan_walker_address a) (pr_wan_walker_address b) &&
  (pr_identifier a =? pr_identifier b).
(** introductionrequestpayload.rs:12 *)
Definition introduction_request_eq (a b : introduction_request) : bool :=
  address_eq (iq_destination_address a) (iq_destination_address b) && address_eq (iq_source_lan_address a) (iq_source_lan_address b) &&
  address_eq (iq_source_wan_address a) (iq_source_wan_address b) && Bool.eqb (iq_advice a) (iq_advice b) &&
  connection_type_eq (iq_connection_type a) (iq_connection_type b) && (iq_identifier a =? iq_identifier b) && rawend_eq (iq_extra_bytes a) (iq_extra_bytes b).
(** introductionresponsepayload.rs:11 *)
Definition introduction_response_eq (a b : introduction_response) : bool :=
  address_eq (ir_destination_address a) (ir_destination_address b) && address_eq (ir_source_lan_address a) (ir_source_lan_address b) &&
  address_eq (ir_source_wan_address a) (ir_source_wan_address b) && address_eq (ir_lan_introduction_address a) (ir_lan_introduction_address b) &&
  address_eq (ir_wan_introduction_address a) (ir_wan_introduction_address b) && Bool.eqb (ir_tunnel a) (ir_tunnel b) &&
  connection_type_eq (ir_connection_type a) (ir_connection_type b) && (ir_identifier a =? ir_identifier b) && rawend_eq (ir_extra_bytes a) (ir_extra_bytes b).
(** binmemberauthenticationpayload.rs:14; the keys are byte vectors *)
Definition bin_member_eq (a b : bin_member) : bool :=
  bytes_eq (bm_public_key_bin a) (bm_public_key_bin b) && bytes_eq (bm_encryption_key_bin a) (bm_encryption_key_bin b).
(** header.rs:10, 20 *)
Definition header_eq (a b : header) : bool :=
  Nat.eqb (h_size a) (h_size b) && match h_version a, h_version b with PyIPV8Header, PyIPV8Header => true end &&
  option_eq bytes_eq (h_mid_hash a) (h_mid_hash b) && option_eq N.eqb (h_message_type a) (h_message_type b).
(** serialization/mod.rs:30 *)
Definition deserializer_eq (a b : deserializer) : bool := packet_eq (pntr a) (pntr b) && Nat.eqb (index a) (index b).

(** [==] on any payload type *)
Fixpoint eq (t : ty) : tval t -> tval t -> bool :=
  match t with
  | TU8 => Byte.eqb
  | TU16 | TU32 | TU64 | TU128 | TChar => N.eqb
  | TVecU8 | TString => bytes_eq
  | TBits => bits_eq
  | TAddress => address_eq
  | TVarLen16 => varlen16_eq
  | TVarLen32 => varlen32_eq
  | TVarLen64 => varlen64_eq
  | TRawEnd => rawend_eq
  | TNested => nested_eq
  | TTime => time_eq
  | TPuncture => puncture_eq
  | TPunctureRequest => puncture_request_eq
  | TIntroductionRequest => introduction_request_eq
  | TIntroductionResponse => introduction_response_eq
  | TBinMember => bin_member_eq
  | TStruct fs => eqs fs
  | TBool => Bool.eqb
  | TI8 | TI16 | TI32 | TI64 | TI128 => Z.eqb
  | TF32 => float_eq 8 23
  | TF64 => float_eq 11 52
  | TOption t => option_eq (eq t)
  | TVec t => vec_eq (eq t)
  | TEnum vs => eqalts vs
  end
with eqs (fs : tys) : tvals fs -> tvals fs -> bool :=
  match fs with
  | FNil => fun _ _ => true
  | FCons t r => fun a b => eq t (fst a) (fst b) && eqs r (snd a) (snd b)
  end
with eqalts (vs : tys) : talts vs -> talts vs -> bool :=
  match vs with
  | FNil => fun v _ => match v with end
  | FCons t r => fun a b =>
      match a, b with
      | inl x, inl y => eq t x y
      | inr x, inr y => eqalts r x y
      | _, _ => false
      end
  end.
