(** * Cost: what reading a payload costs

    The decoders of Serde.v, Codec.v and Universe.v again, line by line, with what each step costs: a number of steps and the bytes requested from the allocator.
    CostProofs.v shows that the results are those of the decoders there, so this file adds the costs and nothing else.
    Steps: calls of the deserializer or serializer ([deserialize_u8], [next_element], [serialize_field], ..), pushes onto a vector, and bytes copied or compared one by one.
    Memory: the sum of all requests of vectors and strings for space, including those given back when a vector grows. An upper bound of what is in use at any time.
    Simplified: error values (of constant size), stack space and what the handler itself allocates are not counted, nor is the copying when a vector grows, which is at most what it requests. *)
From Coq Require Import Strings.String.
From Verif Require Import Base Serde Codec Universe Packet.
Open Scope N_scope.

Record cost := Cost { steps : N; memory : N }.
Definition plus (a b : cost) : cost := Cost (steps a + steps b) (memory a + memory b).

(** a computation that costs something, whatever its outcome *)
Definition costly (A : Type) := (cost * outcome A)%type.
Definition free {A} (o : outcome A) : costly A := (Cost 0 0, o).
Definition spend {A} (c : cost) (m : costly A) : costly A := (plus c (fst m), snd m).
(** Rust's [?] *)
Definition cbind {A B} (m : costly A) (k : A -> costly B) : costly B :=
  match snd m with
  | Ok a => spend (fst m) (k a)
  | Err e => (fst m, Err e)
  | Panic p => (fst m, Panic p)
  end.
Notation "'let!' x ':=' m 'in' k" := (cbind m (fun x => k))
  (at level 200, x pattern, m at level 100, k at level 200).

(** ** serde and bincode *)

(** a read of a primitive: one step *)
Definition prim {A} (d : list byte -> dres A) (b : list byte) : costly (A * list byte) := (Cost 1 0, d b).

(** [Vec::push] of std: [have] elements of size [s], room for [cap]. A full vector requests space for twice as many elements, at least 8 if they are bytes, at least 4
    up to 1024 bytes per element ([MIN_NON_ZERO_CAP] of std; earlier versions: 4 or 1 for all, which is less). *)
Definition first_capacity (s : N) : N := if s <=? 1 then 8 else if s <=? 1024 then 4 else 1.
Definition push (s have cap : N) : cost * N :=
  if have =? cap then let c := N.max (first_capacity s) (2 * cap) in (Cost 1 (s * c), c) else (Cost 1 0, cap).

(** [seq.next_element()] (Serde.v) *)
Definition c_next_element {A} (de : list byte -> costly (A * list byte)) (a : access) : costly (option A * access) :=
  spend (Cost 1 0)
    (if acc_len a =? 0 then free (Ok (None, a))
     else let! (v, r) := de (acc_rest a) in free (Ok (Some v, Access (N.pred (acc_len a)) r))).
Definition c_next_required {A} (de : list byte -> costly (A * list byte)) (e : error) (a : access) : costly (A * access) :=
  let! (o, a') := c_next_element de a in
  match o with
  | Some v => free (Ok (v, a'))
  | None => free (Err e)
  end.
Definition c_tuple {A} (len : N) (visit : access -> costly (A * access)) (b : list byte) : costly (A * list byte) :=
  let! (v, a) := visit (Access len b) in free (Ok (v, acc_rest a)).

(** [for _ in 0..n { res.push(seq.next_element()?.ok_or_else(|| e)?) }] (varlen.rs:50-55, 112-117) *)
Fixpoint c_read_many (e : error) (n len have cap : N) (b : list byte) {struct b} : costly (list byte * access) :=
  if n =? 0 then free (Ok ([], Access len b))
  else spend (Cost 1 0)
    (if len =? 0 then free (Err e)
     else spend (Cost 1 0)
       (match b with
        | [] => free (Err EEof)
        | x :: r =>
            let (c, cap') := push 1 have cap in
            spend c (let! (l, a) := c_read_many e (N.pred n) (N.pred len) (have + 1) cap' r in free (Ok (x :: l, a)))
        end)).

(** serde's [Vec<u8>]: [Vec::with_capacity(min(len, 4096))], then elements until [next_element] is [None] *)
Fixpoint c_read_all (len have cap : N) (b : list byte) {struct b} : costly (list byte * access) :=
  spend (Cost 1 0)
    (if len =? 0 then free (Ok ([], Access len b))
     else spend (Cost 1 0)
       (match b with
        | [] => free (Err EEof)
        | x :: r =>
            let (c, cap') := push 1 have cap in
            spend c (let! (l, a) := c_read_all (N.pred len) (have + 1) cap' r in free (Ok (x :: l, a)))
        end)).
(** [size_hint::cautious] of serde *)
Definition cautious (len : N) : N := N.min len 4096.
Definition c_vec_u8 (b : list byte) : costly (list byte * list byte) :=
  let! (len, r) := prim de_u64 b in
  spend (Cost 0 (cautious len)) (c_tuple len (fun a => c_read_all (acc_len a) 0 (cautious len) (acc_rest a)) r).

(** [deserialize_string]: the bytes are copied and checked *)
Definition c_string (b : list byte) : costly (list byte * list byte) :=
  let! (len, r) := prim de_u64 b in
  if N.of_nat (length r) <? len then free (Err EEof)
  else spend (Cost (2 * len) len)
         (let s := firstn (N.to_nat len) r in
          free (if utf8_valid s then Ok (s, skipn (N.to_nat len) r) else Err EInvalidUtf8)).

(** [deserialize_option] *)
Definition c_option {A} (de : list byte -> costly (A * list byte)) (b : list byte) : costly (option A * list byte) :=
  let! (x, r) := prim de_u8 b in
  match x with
  | x00 => free (Ok (None, r))
  | x01 => let! (v, r) := de r in free (Ok (Some v, r))
  | _ => free (Err EInvalidTag)
  end.

(** serde's [Vec<T>], elements of size [s]: [Vec::with_capacity(min(len, 4096))], then elements until [next_element] is [None] *)
Fixpoint c_elements {A} (s : N) (de : list byte -> costly (A * list byte)) (n : nat) (have cap : N) (b : list byte)
  : costly (list A * list byte) :=
  spend (Cost 1 0)
    match n with
    | O => free (Ok ([], b))
    | S n =>
        let! (x, r) := de b in
        let (c, cap') := push s have cap in
        spend c (let! (xs, r) := c_elements s de n (have + 1) cap' r in free (Ok (x :: xs, r)))
    end.
Definition c_vec {A} (s : N) (de : list byte -> costly (A * list byte)) (b : list byte) : costly (list A * list byte) :=
  let! (len, r) := prim de_u64 b in
  spend (Cost 0 (s * cautious len)) (c_elements s de (N.to_nat len) 0 (cautious len) r).

(** ** The library's types (Codec.v) *)

(** address.rs:36-68 *)
Definition c_octets4 (b : list byte) : costly (byte * byte * byte * byte * list byte) :=
  c_tuple 4
    (fun s =>
       let e := EInvalidLength 0 "an array of length 4" in
       let! (x0, s) := c_next_required (prim de_u8) e s in
       let! (x1, s) := c_next_required (prim de_u8) e s in
       let! (x2, s) := c_next_required (prim de_u8) e s in
       let! (x3, s) := c_next_required (prim de_u8) e s in
       free (Ok ((x0, x1, x2, x3), s))) b.
Definition c_address (b : list byte) : costly (address * list byte) :=
  c_tuple 2
    (fun s =>
       let! (addr, s) := c_next_required c_octets4 (ECustom "Could not deserialize the address") s in
       let! (port, s) := c_next_required (prim de_u16) (ECustom "Could not deserialize the port") s in
       let '(x0, x1, x2, x3) := addr in
       free (Ok (V4 x0 x1 x2 x3 port, s))) b.

(** varlen.rs:26-65, 89-127 *)
Definition c_varlen16 (b : list byte) : costly (varlen16 * list byte) :=
  c_tuple (N.shiftl 1 16)
    (fun s =>
       let e := EInvalidLength 1 "VarLen16" in
       let! (length, s) := c_next_required (prim de_u16) e s in
       let! (res, s) := c_read_many e length (acc_len s) 0 0 (acc_rest s) in
       free (Ok (VarLen16 res, s))) b.
Definition c_varlen32 (b : list byte) : costly (varlen32 * list byte) :=
  c_tuple (N.shiftl 1 32)
    (fun s =>
       let e := EInvalidLength 1 "VarLen16" in
       let! (length, s) := c_next_required (prim de_u32) e s in
       let! (res, s) := c_read_many e length (acc_len s) 0 0 (acc_rest s) in
       free (Ok (VarLen32 res, s))) b.
Definition c_varlen64 (b : list byte) : costly (varlen64 * list byte) :=
  let! (v, r) := c_vec_u8 b in free (Ok (VarLen64 v, r)).

(** rawend.rs:24-54 *)
Fixpoint c_rawend_loop (len have cap : N) (b : list byte) {struct b} : cost * (list byte * list byte) :=
  if len =? 0 then (Cost 1 0, ([], b))
  else match b with
       | [] => (Cost 2 0, ([], []))
       | x :: r =>
           let (c, cap') := push 1 have cap in
           let '(c', (l, rest)) := c_rawend_loop (N.pred len) (have + 1) cap' r in
           (plus (Cost 2 0) (plus c c'), (x :: l, rest))
       end.
Definition c_rawend (b : list byte) : costly (rawend * list byte) :=
  c_tuple USIZE_MAX
    (fun s =>
       let '(c, (res, rest)) := c_rawend_loop (acc_len s) 0 0 (acc_rest s) in
       (c, Ok (RawEnd res, Access 0 rest))) b.

(** nestedpayload.rs:33-50 *)
Definition c_nested (b : list byte) : costly (nested_packet * list byte) :=
  let! (v, r) := c_varlen16 b in free (Ok (NestedPacket (Packet (vl16 v)), r)).

(** the derived impls of timedistributionpayload.rs:14-17, puncturepayload.rs:9-20, puncturerequestpayload.rs:9-25 *)
Definition c_time (b : list byte) : costly (time_distribution * list byte) :=
  c_tuple 1
    (fun s =>
       let! (t, s) := c_next_required (prim de_u64) (EInvalidLength 0 "struct TimeDistributionPayload with 1 element") s in
       free (Ok (TimeDistribution t, s))) b.
Definition c_puncture (b : list byte) : costly (puncture * list byte) :=
  c_tuple 3
    (fun s =>
       let e i := EInvalidLength i "struct PuncturePayload with 3 elements" in
       let! (lan, s) := c_next_required c_address (e 0%nat) s in
       let! (wan, s) := c_next_required c_address (e 1%nat) s in
       let! (id, s) := c_next_required (prim de_u16) (e 2%nat) s in
       free (Ok (Puncture lan wan id, s))) b.
Definition c_puncture_request (b : list byte) : costly (puncture_request * list byte) :=
  c_tuple 3
    (fun s =>
       let e i := EInvalidLength i "struct PunctureRequestPayload with 3 elements" in
       let! (lan, s) := c_next_required c_address (e 0%nat) s in
       let! (wan, s) := c_next_required c_address (e 1%nat) s in
       let! (id, s) := c_next_required (prim de_u16) (e 2%nat) s in
       free (Ok (PunctureRequest lan wan id, s))) b.

(** introductionrequestpayload.rs:82-111 *)
Definition c_introduction_request (b : list byte) : costly (introduction_request * list byte) :=
  c_tuple 6
    (fun s =>
       let e i := EInvalidLength i "tuple struct IntroductionRequestPayloadPattern with 6 elements" in
       let! (p0, s) := c_next_required c_address (e 0%nat) s in
       let! (p1, s) := c_next_required c_address (e 1%nat) s in
       let! (p2, s) := c_next_required c_address (e 2%nat) s in
       let! (p3, s) := c_next_required (prim de_bits) (e 3%nat) s in
       let! (p4, s) := c_next_required (prim de_u16) (e 4%nat) s in
       let! (p5, s) := c_next_required c_rawend (e 5%nat) s in
       free (Ok ({| iq_destination_address := p0;
                    iq_source_lan_address := p1;
                    iq_source_wan_address := p2;
                    iq_advice := bit7 p3;
                    iq_connection_type := ct_decode (bit0 p3, bit1 p3);
                    iq_identifier := p4;
                    iq_extra_bytes := p5 |}, s))) b.

(** introductionresponsepayload.rs:83-123 *)
Definition c_introduction_response (b : list byte) : costly (introduction_response * list byte) :=
  c_tuple 8
    (fun s =>
       let e i := EInvalidLength i "tuple struct IntroductionResponsePayloadPattern with 8 elements" in
       let! (p0, s) := c_next_required c_address (e 0%nat) s in
       let! (p1, s) := c_next_required c_address (e 1%nat) s in
       let! (p2, s) := c_next_required c_address (e 2%nat) s in
       let! (p3, s) := c_next_required c_address (e 3%nat) s in
       let! (p4, s) := c_next_required c_address (e 4%nat) s in
       let! (p5, s) := c_next_required (prim de_bits) (e 5%nat) s in
       let! (p6, s) := c_next_required (prim de_u16) (e 6%nat) s in
       let! (p7, s) := c_next_required c_rawend (e 7%nat) s in
       free (Ok ({| ir_destination_address := p0;
                    ir_source_lan_address := p1;
                    ir_source_wan_address := p2;
                    ir_lan_introduction_address := p3;
                    ir_wan_introduction_address := p4;
                    ir_tunnel := false;
                    ir_connection_type := ct_decode (bit0 p5, bit1 p5);
                    ir_identifier := p6;
                    ir_extra_bytes := p7 |}, s))) b.

(** binmemberauthenticationpayload.rs:54-96: the prefix is compared, the two keys are copied *)
Definition c_bin_member (b : list byte) : costly (bin_member * list byte) :=
  let! (payload_temporary, r) := c_varlen16 b in
  let contents := vl16 payload_temporary in
  let! prefix := free (or_panic (slice contents 0 10)) in
  spend (Cost 10 0)
    (if negb (bytes_eqb prefix libnacl_prefix) then
       free (Err (ECustom "Received BinMemberAuthenticationPayload without LibNaclPK: prefix"))
     else
       let e := ECustom "Received BinMemberAuthenticationPayload had an invalid size" in
       let! s1 := free (or_panic (slice contents 10 42)) in
       let! encryption_key_bin := (Cost 32 0, ok_or (layout_verified 32 s1) e) in
       let! s2 := free (or_panic (slice contents 42 74)) in
       let! public_key_bin := (Cost 32 0, ok_or (layout_verified 32 s2) e) in
       free (Ok ({| bm_public_key_bin := public_key_bin; bm_encryption_key_bin := encryption_key_bin |}, r))).

(** header.rs:125-208: [version_bytes] is a vector, [mid_hash] an array that [py_ipv8_header] copies to a vector (header.rs:38) *)
Fixpoint c_fill_u8 (e : error) (n : nat) (s : access) : costly (list byte * access) :=
  match n with
  | O => free (Ok ([], s))
  | S n' =>
      let! (x, s) := c_next_required (prim de_u8) e s in
      let! (l, s) := c_fill_u8 e n' s in
      free (Ok (x :: l, s))
  end.
Definition c_header (b : list byte) : costly (header * list byte) :=
  c_tuple USIZE_MAX
    (fun s =>
       let e := ECustom "No valid header type could be determined" in
       let! (v0, s) := c_next_required (prim de_u8) e s in
       let (c0, cap) := push 1 0 0 in
       spend c0
         (let! (v1, s) := c_next_required (prim de_u8) e s in
          let (c1, _) := push 1 1 cap in
          spend c1
            (spend (Cost 2 0)
              (if bytes_eqb [v0; v1] (bs [0; 2]) then
                 let! (mid_hash, s) := c_fill_u8 e 20 s in
                 let! (message_type, s) := c_next_required (prim de_u8) e s in
                 spend (Cost 20 20) (free (Ok (py_ipv8_header mid_hash message_type, s)))
               else free (Err e))))) b.

(** ** All types (Universe.v); [size_of t]: the size of the type in memory, which depends on the compiler *)
Section Layout.
Context (size_of : ty -> N).

Fixpoint c_de (t : ty) : list byte -> costly (tval t * list byte) :=
  match t with
  | TU8 => prim de_u8
  | TU16 => prim de_u16
  | TU32 => prim de_u32
  | TU64 => prim de_u64
  | TVecU8 => c_vec_u8
  | TBits => prim de_bits
  | TAddress => c_address
  | TVarLen16 => c_varlen16
  | TVarLen32 => c_varlen32
  | TVarLen64 => c_varlen64
  | TRawEnd => c_rawend
  | TNested => c_nested
  | TTime => c_time
  | TPuncture => c_puncture
  | TPunctureRequest => c_puncture_request
  | TIntroductionRequest => c_introduction_request
  | TIntroductionResponse => c_introduction_response
  | TBinMember => c_bin_member
  | TStruct fs => c_tuple (N.of_nat (nfields fs)) (c_des fs 0)
  | TBool => prim de_bool
  | TI8 => prim (de_int 1)
  | TI16 => prim (de_int 2)
  | TI32 => prim (de_int 4)
  | TI64 => prim (de_int 8)
  | TU128 => prim (de_uint 16)
  | TI128 => prim (de_int 16)
  | TF32 => prim (de_uint 4)
  | TF64 => prim (de_uint 8)
  | TChar => prim de_char
  | TString => c_string
  | TOption t => c_option (c_de t)
  | TVec t => c_vec (size_of t) (c_de t)
  | TEnum vs => fun b => let! (i, r) := prim de_u32 b in c_dealts vs i r
  end
with c_des (fs : tys) : nat -> access -> costly (tvals fs * access) :=
  match fs with
  | FNil => fun _ s => free (Ok (tt, s))
  | FCons t r => fun i s =>
      let! (x, s) := c_next_required (c_de t) (EInvalidLength i "struct") s in
      let! (xs, s) := c_des r (S i) s in
      free (Ok ((x, xs), s))
  end
with c_dealts (vs : tys) : N -> list byte -> costly (talts vs * list byte) :=
  match vs with
  | FNil => fun _ _ => free (Err (ECustom "invalid value: variant index"))
  | FCons t r => fun i b =>
      spend (Cost 1 0)
        (if i =? 0 then let! (x, b) := c_de t b in free (Ok (inl x, b))
         else let! (y, b) := c_dealts r (N.pred i) b in free (Ok (inr y, b)))
  end.

(** What [Serialize] impls copy: a nested packet is cloned first (nestedpayload.rs:25) *)
Fixpoint copies (t : ty) : tval t -> N :=
  match t with
  | TNested => fun v => N.of_nat (length (packet_bytes (nested_inner v)))
  | TStruct fs => copies_all fs
  | TOption t => fun v => match v with Some x => copies t x | None => 0 end
  | TVec t => fun v => fold_right (fun x n => copies t x + n) 0 v
  | TEnum vs => copies_alt vs
  | _ => fun _ => 0
  end
with copies_all (fs : tys) : tvals fs -> N :=
  match fs with
  | FNil => fun _ => 0
  | FCons t r => fun v => copies t (fst v) + copies_all r (snd v)
  end
with copies_alt (vs : tys) : talts vs -> N :=
  match vs with
  | FNil => fun v => match v with end
  | FCons t r => fun v => match v with inl x => copies t x | inr y => copies_alt r y end
  end.

(** [serialized_size(&res)]: the serializer calls of the impl, each counted. (It never fails for a value that was just read, C22.) *)
Definition size_pass (t : ty) (v : tval t) : cost :=
  Cost (match ser t v with Ok evs => N.of_nat (length evs) | _ => 0 end + copies t v) (copies t v).

(** [PacketDeserializer::next_payload::<T>] (serialization/mod.rs:45-69) *)
Definition c_next_payload (t : ty) (d : deserializer) : cost * (deserializer * outcome (tval t)) :=
  let r :=
    let! s := free (or_panic (slice_from (packet_bytes (pntr d)) (index d))) in
    let! (res, _) := c_de t s in
    spend (size_pass t res)
      (let! n := free (bincode_serialized_size (ser t res)) in
       free (Ok (res, n))) in
  (fst r,
   match snd r with
   | Ok (res, n) => ({| pntr := pntr d; index := index d + n |}, Ok res)
   | Err e => (d, Err e)
   | Panic p => (d, Panic p)
   end).

End Layout.

(** [PacketDeserializer::peek_header] (serialization/mod.rs:72-77) *)
Definition c_peek_header (d : deserializer) : costly header :=
  let! s := free (or_panic (slice_from (packet_bytes (pntr d)) (index d))) in
  let! (res, _) := c_header s in
  free (Ok res).

(** [PacketDeserializer::pop_header] (serialization/mod.rs:80-84) *)
Definition c_pop_header (d : deserializer) : cost * (deserializer * outcome header) :=
  let r := c_peek_header d in
  (fst r,
   match snd r with
   | Ok res => ({| pntr := pntr d; index := index d + h_size res |}, Ok res)
   | Err e => (d, Err e)
   | Panic p => (d, Panic p)
   end).
