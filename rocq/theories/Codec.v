(** * Codec: the (de)serializable types of the crate, type by type *)
From Coq Require Import Strings.String.
From Verif Require Import Base Serde.
Open Scope N_scope.

(** ** serialization/bits.rs *)

(** [pub struct Bits] (bits.rs:13-22) *)
Record bits := Bits { bit0 : bool; bit1 : bool; bit2 : bool; bit3 : bool;
                      bit4 : bool; bit5 : bool; bit6 : bool; bit7 : bool }.

(** [fn bool_to_u8] (bits.rs:25-31) *)
Definition bool_to_u8 (data : bool) : N := if data then 1 else 0.

(** [Bits::new] (bits.rs:35-46) *)
Definition bits_new : bits := Bits false false false false false false false false.

(** [Bits::from_bools] (bits.rs:49-60) *)
Definition bits_from_bools (b0 b1 b2 b3 b4 b5 b6 b7 : bool) : bits :=
  Bits b0 b1 b2 b3 b4 b5 b6 b7.

(** [Bits::from_u8] (bits.rs:63-74) *)
Definition bits_from_u8 (num : byte) : bits :=
  let n := N_of_byte num in
  let bit (i : N) := 0 <? N.land (N.shiftr n i) 1 in
  Bits (0 <? N.land n 1) (bit 1) (bit 2) (bit 3) (bit 4) (bit 5) (bit 6) (bit 7).

(** [Bits::to_u8] (bits.rs:77-86); all shifts stay within u8 *)
Definition bits_to_u8 (b : bits) : byte :=
  byte_of_N
    (N.lor (N.lor (N.lor (N.lor (N.lor (N.lor (N.lor
       (bool_to_u8 (bit0 b))
       (N.shiftl (bool_to_u8 (bit1 b)) 1))
       (N.shiftl (bool_to_u8 (bit2 b)) 2))
       (N.shiftl (bool_to_u8 (bit3 b)) 3))
       (N.shiftl (bool_to_u8 (bit4 b)) 4))
       (N.shiftl (bool_to_u8 (bit5 b)) 5))
       (N.shiftl (bool_to_u8 (bit6 b)) 6))
       (N.shiftl (bool_to_u8 (bit7 b)) 7)).

(** [impl Serialize for Bits] (bits.rs:89-98) *)
Definition ser_bits (b : bits) : outcome (list ev) :=
  Ok [EvStruct 1; EvU8 (bits_to_u8 b)].

(** [impl Deserialize for Bits], [BitsVisitor::visit_u8] (bits.rs:106-129) *)
Definition de_bits (b : list byte) : dres bits :=
  let* (v, r) := de_u8 b in Ok (bits_from_u8 v, r).

(** ** payloads/connectiontype.rs *)

(** [pub enum ConnectionType] (connectiontype.rs:7-14) *)
Inductive connection_type := PUBLIC | SYMMETRICNAT | UNKNOWN.

(** [ConnectionType::encode] (connectiontype.rs:19-25) *)
Definition ct_encode (c : connection_type) : bool * bool :=
  match c with
  | UNKNOWN => (false, false)
  | PUBLIC => (true, false)
  | SYMMETRICNAT => (true, true)
  end.

(** [ConnectionType::decode] (connectiontype.rs:28-35) *)
Definition ct_decode (b : bool * bool) : connection_type :=
  match b with
  | (false, false) => UNKNOWN
  | (true, false) => PUBLIC
  | (false, true) => UNKNOWN
  | (true, true) => SYMMETRICNAT
  end.

(** ** networking/address.rs *)

(** [pub struct Address(pub SocketAddr)] (address.rs:12-13); [SocketAddr] is
    std's: an IPv4 address with a port, or an IPv6 address (16 bytes) with port, flow info, scope. *)
Inductive address :=
| V4 (a b c d : byte) (port : N)
| V6 (octets : list byte) (port flowinfo scope_id : N).

(** [impl Serialize for Address] (address.rs:15-34). [Ipv4Addr] serializes (bincode is not human
    readable) as the array of its 4 octets, i.e. as a tuple of 4 u8. *)
Definition ser_address (a : address) : outcome (list ev) :=
  match a with
  | V4 a b c d port =>
      Ok [EvTuple 2; EvTuple 4; EvU8 a; EvU8 b; EvU8 c; EvU8 d; EvU16 port]
  | V6 _ _ _ _ => Err (ECustom "ip-v8 does not (yet) support ipv6")
  end.

(** [Deserialize for Ipv4Addr] of serde: [[u8; 4]], a tuple of 4 u8. *)
Definition de_octets4 (b : list byte) : dres (byte * byte * byte * byte) :=
  deserialize_tuple 4
    (fun s =>
       let e := EInvalidLength 0 "an array of length 4" in
       let* (x0, s) := next_required de_u8 e s in
       let* (x1, s) := next_required de_u8 e s in
       let* (x2, s) := next_required de_u8 e s in
       let* (x3, s) := next_required de_u8 e s in
       Ok ((x0, x1, x2, x3), s)) b.

(** [impl Deserialize for Address] (address.rs:36-68) *)
Definition de_address (b : list byte) : dres address :=
  deserialize_tuple 2
    (fun s =>
       let* (addr, s) :=
         next_required de_octets4 (ECustom "Could not deserialize the address") s in
       let* (port, s) :=
         next_required de_u16 (ECustom "Could not deserialize the port") s in
       let '(x0, x1, x2, x3) := addr in
       Ok (V4 x0 x1 x2 x3 port, s)) b.

(** ** serialization/varlen.rs *)

(** [pub struct VarLen16(pub Vec<u8>)] etc. (varlen.rs:10-24) *)
Record varlen16 := VarLen16 { vl16 : list byte }.
Record varlen32 := VarLen32 { vl32 : list byte }.
Record varlen64 := VarLen64 { vl64 : list byte }.

(** [impl Serialize for VarLen16] (varlen.rs:67-87) *)
Definition ser_varlen16 (v : varlen16) : outcome (list ev) :=
  let length := N.of_nat (length (vl16 v)) in
  if 0xffff <? length then
    Err (ECustom "Data too large to fit in a VarLen16. Must be less than 65536 bytes.")
  else Ok (EvStruct (length + 2) :: EvU16 length :: map EvU8 (vl16 v)).

(** [impl Deserialize for VarLen16] (varlen.rs:26-65) *)
Definition de_varlen16 (b : list byte) : dres varlen16 :=
  deserialize_tuple (N.shiftl 1 16)
    (fun s =>
       let e := EInvalidLength 1 "VarLen16" in
       let* (length, s) := next_required de_u16 e s in
       let* (res, s) := read_many_u8 e length (acc_len s) (acc_rest s) in
       Ok (VarLen16 res, s)) b.

(** [impl Serialize for VarLen32] (varlen.rs:129-149) *)
Definition ser_varlen32 (v : varlen32) : outcome (list ev) :=
  let length := N.of_nat (length (vl32 v)) in
  if 0xffffffff <? length then
    Err (ECustom "Data too large to fit in a VarLen32. Must be less than 4294967295 bytes.")
  else Ok (EvStruct (length + 4) :: EvU32 length :: map EvU8 (vl32 v)).

(** [impl Deserialize for VarLen32] (varlen.rs:89-127); the visitor's [expecting] says "VarLen16" *)
Definition de_varlen32 (b : list byte) : dres varlen32 :=
  deserialize_tuple (N.shiftl 1 32)
    (fun s =>
       let e := EInvalidLength 1 "VarLen16" in
       let* (length, s) := next_required de_u32 e s in
       let* (res, s) := read_many_u8 e length (acc_len s) (acc_rest s) in
       Ok (VarLen32 res, s)) b.

(** [#[derive(Serialize, Deserialize)] struct VarLen64(pub Vec<u8>)] (varlen.rs:22-23):
    a newtype struct is transparent in bincode. *)
Definition ser_varlen64 (v : varlen64) : outcome (list ev) := ser_vec_u8 (vl64 v).
Definition de_varlen64 (b : list byte) : dres varlen64 :=
  let* (v, r) := de_vec_u8 b in Ok (VarLen64 v, r).

(** ** serialization/rawend.rs *)

(** [pub struct RawEnd(pub Vec<u8>)] (rawend.rs:9) *)
Record rawend := RawEnd { raw_bytes : list byte }.

(** [impl Serialize for RawEnd] (rawend.rs:11-22) *)
Definition ser_rawend (v : rawend) : outcome (list ev) :=
  Ok (EvStruct (N.of_nat (length (raw_bytes v))) :: map EvU8 (raw_bytes v)).

(** The [while let Ok(item) = seq.next_element()] loop (rawend.rs:43-48): stops at [None] and at
    the first error (end of input), which it swallows. By recursion on the unread bytes;
    [rawend_loop_step] in SerdeFacts.v shows that it is this loop. *)
Fixpoint rawend_loop (len : N) (b : list byte) {struct b} : list byte * list byte :=
  if len =? 0 then ([], b)
  else match b with
       | [] => ([], [])
       | x :: r => let '(l, rest) := rawend_loop (N.pred len) r in (x :: l, rest)
       end.

(** [impl Deserialize for RawEnd] (rawend.rs:24-54). After the loop only the unread bytes of the
    deserializer are observable, so the visitor's access is rebuilt with length 0. *)
Definition de_rawend (b : list byte) : dres rawend :=
  deserialize_tuple USIZE_MAX
    (fun s =>
       let '(res, rest) := rawend_loop (acc_len s) (acc_rest s) in
       Ok (RawEnd res, Access 0 rest)) b.

(** ** serialization/mod.rs:20-28, serialization/nestedpayload.rs *)

(** [pub struct Packet(pub Vec<u8>)] (serialization/mod.rs:22); [clone] copies the bytes. *)
Record packet := Packet { packet_bytes : list byte }.

(** [pub struct NestedPacket(pub Packet)] (nestedpayload.rs:14) *)
Record nested_packet := NestedPacket { nested_inner : packet }.

(** [impl Serialize for NestedPacket] (nestedpayload.rs:20-31) *)
Definition ser_nested (v : nested_packet) : outcome (list ev) :=
  let i := VarLen16 (packet_bytes (nested_inner v)) in
  ser_seq [Ok [EvStruct (N.of_nat (length (packet_bytes (nested_inner v))))]; ser_varlen16 i].

(** [impl Deserialize for NestedPacket] (nestedpayload.rs:33-50) through the newtype
    [NestedPayloadPattern(VarLen16)], transparent in bincode *)
Definition de_nested (b : list byte) : dres nested_packet :=
  let* (v, r) := de_varlen16 b in Ok (NestedPacket (Packet (vl16 v)), r).

(** ** payloads/timedistributionpayload.rs (derived impls) *)

(** [pub struct TimeDistributionPayload] (timedistributionpayload.rs:14-17) *)
Record time_distribution := TimeDistribution { global_time : N }.

Definition ser_time (v : time_distribution) : outcome (list ev) :=
  Ok [EvStruct 1; EvU64 (global_time v)].
Definition de_time (b : list byte) : dres time_distribution :=
  deserialize_tuple 1
    (fun s =>
       let* (t, s) := next_required de_u64
         (EInvalidLength 0 "struct TimeDistributionPayload with 1 element") s in
       Ok (TimeDistribution t, s)) b.

(** ** payloads/puncturepayload.rs (derived impls) *)

(** [pub struct PuncturePayload] (puncturepayload.rs:9-20) *)
Record puncture := Puncture {
  pu_lan_walker_address : address; pu_wan_walker_address : address; pu_identifier : N }.

Definition ser_puncture (v : puncture) : outcome (list ev) :=
  ser_seq [Ok [EvStruct 3]; ser_address (pu_lan_walker_address v);
           ser_address (pu_wan_walker_address v); Ok [EvU16 (pu_identifier v)]].
Definition de_puncture (b : list byte) : dres puncture :=
  deserialize_tuple 3
    (fun s =>
       let e i := EInvalidLength i "struct PuncturePayload with 3 elements" in
       let* (lan, s) := next_required de_address (e 0%nat) s in
       let* (wan, s) := next_required de_address (e 1%nat) s in
       let* (id, s) := next_required de_u16 (e 2%nat) s in
       Ok (Puncture lan wan id, s)) b.

(** ** payloads/puncturerequestpayload.rs (derived impls) *)

(** [pub struct PunctureRequestPayload] (puncturerequestpayload.rs:9-25) *)
Record puncture_request := PunctureRequest {
  pr_lan_walker_address : address; pr_wan_walker_address : address; pr_identifier : N }.

Definition ser_puncture_request (v : puncture_request) : outcome (list ev) :=
  ser_seq [Ok [EvStruct 3]; ser_address (pr_lan_walker_address v);
           ser_address (pr_wan_walker_address v); Ok [EvU16 (pr_identifier v)]].
Definition de_puncture_request (b : list byte) : dres puncture_request :=
  deserialize_tuple 3
    (fun s =>
       let e i := EInvalidLength i "struct PunctureRequestPayload with 3 elements" in
       let* (lan, s) := next_required de_address (e 0%nat) s in
       let* (wan, s) := next_required de_address (e 1%nat) s in
       let* (id, s) := next_required de_u16 (e 2%nat) s in
       Ok (PunctureRequest lan wan id, s)) b.

(** ** payloads/introductionrequestpayload.rs *)

(** [pub struct IntroductionRequestPayload] (introductionrequestpayload.rs:14-41) *)
Record introduction_request := IntroductionRequest {
  iq_destination_address : address;
  iq_source_lan_address : address;
  iq_source_wan_address : address;
  iq_advice : bool;
  iq_connection_type : connection_type;
  iq_identifier : N;
  iq_extra_bytes : rawend }.

(** [impl Serialize for IntroductionRequestPayload] (introductionrequestpayload.rs:50-80) *)
Definition ser_introduction_request (v : introduction_request) : outcome (list ev) :=
  let conntype := ct_encode (iq_connection_type v) in
  ser_seq
    [Ok [EvStruct 6];
     ser_address (iq_destination_address v);
     ser_address (iq_source_lan_address v);
     ser_address (iq_source_wan_address v);
     ser_bits (bits_from_bools (fst conntype) (snd conntype)
                 false false false false false (iq_advice v));
     Ok [EvU16 (iq_identifier v)];
     ser_rawend (iq_extra_bytes v)].

(** [impl Deserialize for IntroductionRequestPayload] (introductionrequestpayload.rs:82-111), through
    the derived impl of [IntroductionRequestPayloadPattern], a 6-tuple struct *)
Definition de_introduction_request (b : list byte) : dres introduction_request :=
  deserialize_tuple 6
    (fun s =>
       let e i := EInvalidLength i
         "tuple struct IntroductionRequestPayloadPattern with 6 elements" in
       let* (p0, s) := next_required de_address (e 0%nat) s in
       let* (p1, s) := next_required de_address (e 1%nat) s in
       let* (p2, s) := next_required de_address (e 2%nat) s in
       let* (p3, s) := next_required de_bits (e 3%nat) s in
       let* (p4, s) := next_required de_u16 (e 4%nat) s in
       let* (p5, s) := next_required de_rawend (e 5%nat) s in
       Ok ({| iq_destination_address := p0;
              iq_source_lan_address := p1;
              iq_source_wan_address := p2;
              iq_advice := bit7 p3;
              iq_connection_type := ct_decode (bit0 p3, bit1 p3);
              iq_identifier := p4;
              iq_extra_bytes := p5 |}, s)) b.

(** ** payloads/introductionresponsepayload.rs *)

(** [pub struct IntroductionResponsePayload] (introductionresponsepayload.rs:13-46) *)
Record introduction_response := IntroductionResponse {
  ir_destination_address : address;
  ir_source_lan_address : address;
  ir_source_wan_address : address;
  ir_lan_introduction_address : address;
  ir_wan_introduction_address : address;
  ir_tunnel : bool;
  ir_connection_type : connection_type;
  ir_identifier : N;
  ir_extra_bytes : rawend }.

(** [impl Serialize for IntroductionResponsePayload] (introductionresponsepayload.rs:55-81) *)
Definition ser_introduction_response (v : introduction_response) : outcome (list ev) :=
  let conntype := ct_encode (ir_connection_type v) in
  ser_seq
    [Ok [EvStruct 6];
     ser_address (ir_destination_address v);
     ser_address (ir_source_lan_address v);
     ser_address (ir_source_wan_address v);
     ser_address (ir_lan_introduction_address v);
     ser_address (ir_wan_introduction_address v);
     ser_bits (bits_from_bools (fst conntype) (snd conntype)
                 false false false false false false);
     Ok [EvU16 (ir_identifier v)];
     ser_rawend (ir_extra_bytes v)].

(** [impl Deserialize for IntroductionResponsePayload] (introductionresponsepayload.rs:83-123), through
    the derived impl of [IntroductionResponsePayloadPattern], an 8-tuple struct *)
Definition de_introduction_response (b : list byte) : dres introduction_response :=
  deserialize_tuple 8
    (fun s =>
       let e i := EInvalidLength i
         "tuple struct IntroductionResponsePayloadPattern with 8 elements" in
       let* (p0, s) := next_required de_address (e 0%nat) s in
       let* (p1, s) := next_required de_address (e 1%nat) s in
       let* (p2, s) := next_required de_address (e 2%nat) s in
       let* (p3, s) := next_required de_address (e 3%nat) s in
       let* (p4, s) := next_required de_address (e 4%nat) s in
       let* (p5, s) := next_required de_bits (e 5%nat) s in
       let* (p6, s) := next_required de_u16 (e 6%nat) s in
       let* (p7, s) := next_required de_rawend (e 7%nat) s in
       Ok ({| ir_destination_address := p0;
              ir_source_lan_address := p1;
              ir_source_wan_address := p2;
              ir_lan_introduction_address := p3;
              ir_wan_introduction_address := p4;
              ir_tunnel := false;
              ir_connection_type := ct_decode (bit0 p5, bit1 p5);
              ir_identifier := p6;
              ir_extra_bytes := p7 |}, s)) b.

(** ** payloads/binmemberauthenticationpayload.rs *)

(** [pub struct BinMemberAuthenticationPayload] (binmemberauthenticationpayload.rs:15-20);
    both fields are [[u8; 32]] *)
Record bin_member := BinMember { bm_public_key_bin : list byte; bm_encryption_key_bin : list byte }.

(** "LibNaCLPK:" in bytes (binmemberauthenticationpayload.rs:38, 73) *)
Definition libnacl_prefix : list byte := bs [76; 105; 98; 78; 97; 67; 76; 80; 75; 58].

(** [impl Serialize for BinMemberAuthenticationPayload] (binmemberauthenticationpayload.rs:25-52) *)
Definition ser_bin_member (v : bin_member) : outcome (list ev) :=
  let length := N.of_nat (length (bm_public_key_bin v) + length (bm_encryption_key_bin v) + 10) in
  Ok (EvTuple (length + 2) :: EvU16 length
        :: map EvU8 libnacl_prefix
        ++ map EvU8 (bm_encryption_key_bin v)
        ++ map EvU8 (bm_public_key_bin v)).

(** Equality of byte slices, [==] / [!=] on [&[u8]]. *)
Fixpoint bytes_eqb (a b : list byte) : bool :=
  match a, b with
  | [], [] => true
  | x :: a', y :: b' => Byte.eqb x y && bytes_eqb a' b'
  | _, _ => false
  end.

(** [zerocopy::LayoutVerified::<_, [u8; n]>::new(s)] (also util.rs:14): [Some] iff the size is exactly [n]
    (the alignment of a byte array is 1). *)
Definition layout_verified (n : nat) (s : list byte) : option (list byte) :=
  if (length s =? n)%nat then Some s else None.

Definition ok_or {A} (o : option A) (e : error) : outcome A :=
  match o with Some a => Ok a | None => Err e end.

(** [impl Deserialize for BinMemberAuthenticationPayload]
    (binmemberauthenticationpayload.rs:54-96), through the newtype pattern over [VarLen16].
    The slices [contents[0..10]], [contents[10..42]], [contents[42..74]] are unchecked. *)
Definition de_bin_member (b : list byte) : dres bin_member :=
  let* (payload_temporary, r) := de_varlen16 b in
  let contents := vl16 payload_temporary in
  let* prefix := or_panic (slice contents 0 10) in
  if negb (bytes_eqb prefix libnacl_prefix) then
    Err (ECustom "Received BinMemberAuthenticationPayload without LibNaclPK: prefix")
  else
    let e := ECustom "Received BinMemberAuthenticationPayload had an invalid size" in
    let* s1 := or_panic (slice contents 10 42) in
    let* encryption_key_bin := ok_or (layout_verified 32 s1) e in
    let* s2 := or_panic (slice contents 42 74) in
    let* public_key_bin := ok_or (layout_verified 32 s2) e in
    Ok ({| bm_public_key_bin := public_key_bin; bm_encryption_key_bin := encryption_key_bin |}, r).

(** ** serialization/header.rs *)

(** [pub enum HeaderVersion] (header.rs:11-14) *)
Inductive header_version := PyIPV8Header.

(** [pub struct Header] (header.rs:21-30); all fields are public *)
Record header := Header {
  h_size : nat;
  h_version : header_version;
  h_mid_hash : option (list byte);
  h_message_type : option N }.

(** [PY_IPV8_HEADER_SIZE] (header.rs:78) *)
Definition PY_IPV8_HEADER_SIZE : nat := 23.

(** [Header::py_ipv8_header] (header.rs:34-41) *)
Definition py_ipv8_header (mid_hash : list byte) (message_type : byte) : header :=
  {| h_size := PY_IPV8_HEADER_SIZE;
     h_version := PyIPV8Header;
     h_mid_hash := Some mid_hash;
     h_message_type := Some (N_of_byte message_type) |}.

(** [impl Serialize for Header] (header.rs:83-122): [message_type as u8] truncates; the number of
    bytes of the hash is not checked *)
Definition ser_header (h : header) : outcome (list ev) :=
  match h_version h with
  | PyIPV8Header =>
      match h_mid_hash h with
      | None => Err (ECustom "mid_hash was empty and this wasn't expected")
      | Some hash =>
          let* message_type :=
            ok_or (h_message_type h) (ECustom "Message type was empty and this wasn't expected") in
          Ok (EvTuple (N.of_nat PY_IPV8_HEADER_SIZE) :: EvU16 2
                :: map EvU8 hash ++ [EvU8 (byte_of_N message_type)])
      end
  end.

(** [for i in mid_hash.iter_mut() { *i = seq.next_element()?.ok_or_else(..)?; }] (header.rs:185-191) *)
Fixpoint fill_u8 (e : error) (n : nat) (s : access) : outcome (list byte * access) :=
  match n with
  | O => Ok ([], s)
  | S n' =>
      let* (x, s) := next_required de_u8 e s in
      let* (l, s) := fill_u8 e n' s in
      Ok (x :: l, s)
  end.

(** [impl Deserialize for Header], [HeaderVisitor::visit_seq] (header.rs:125-208). The version is a
    [Some] whenever the pseudo loop is left by [break], so the [None] arm (199-201) is unreachable. *)
Definition de_header (b : list byte) : dres header :=
  deserialize_tuple USIZE_MAX
    (fun s =>
       let e := ECustom "No valid header type could be determined" in
       let* (v0, s) := next_required de_u8 e s in
       let* (v1, s) := next_required de_u8 e s in
       if bytes_eqb [v0; v1] (bs [0; 2]) then
         let* (mid_hash, s) := fill_u8 e 20 s in
         let* (message_type, s) := next_required de_u8 e s in
         Ok (py_ipv8_header mid_hash message_type, s)
       else Err e) b.
