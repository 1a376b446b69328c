(** * Recursive: payload types that contain themselves, and the stack it takes to read them

    [PacketDeserializer::next_payload<T>] (serialization/mod.rs:45-69) takes any [T]; Universe.v has the types derived from others. A type can also contain
    itself, behind a [Box] (or several types each other): [struct Comment { text: VarLen16, reply: Option<Box<Comment>> }]. Then what is derived calls
    itself, and how deep is up to the packet. [Box<T>]'s impls of serde hand on to those of [T]; nothing in serde, in bincode as configured here
    (serialization/mod.rs:51-59: no limit) or in the crate counts how deep. *)
From Coq Require Import Strings.String.
From Verif Require Import Base Serde Codec Universe Packet Custom.
Open Scope nat_scope.

(** How a type is declared. [RBox i] is [Box<Ti>] where [Ti] is the [i]-th of the program's own types. *)
Inductive rty :=
| RBase (t : ty)             (* a type of Universe.v *)
| RStruct (fs : rtys)
| ROption (t : rty)
| RVec (t : rty)
| REnum (vs : rtys)          (* one type per variant, as for [TEnum] *)
| RBox (i : nat)
with rtys := RNil | RCons (t : rty) (fs : rtys).

(** The program's own types *)
Definition types := nat -> rty.

Inductive rval :=
| VBase (t : ty) (v : tval t)
| VStruct (fs : list rval)
| VNone
| VSome (v : rval)
| VVec (l : list rval)
| VVariant (i : N) (v : rval)
| VBox (v : rval).

Fixpoint rfields (fs : rtys) : nat := match fs with RNil => 0 | RCons _ r => S (rfields r) end.

(** Not a panic in Rust's sense: the process is aborted. It is put among the outcomes here because, like a panic, nothing that reads or writes payloads
    catches it. *)
Definition stack_overflow : panic := PUser 0.

(** What the derived [deserialize] does with the fields of a struct (as [des] in Universe.v) and with the variants of an enum (as [dealts]) *)
Fixpoint read_fields (read : rty -> list byte -> dres rval) (fs : rtys) (i : nat) (s : access) : outcome (list rval * access) :=
  match fs with
  | RNil => Ok ([], s)
  | RCons t r =>
      let* (x, s) := next_required (read t) (EInvalidLength i "struct") s in
      let* (xs, s) := read_fields read r (S i) s in
      Ok (x :: xs, s)
  end.
Fixpoint read_variant (read : rty -> list byte -> dres rval) (vs : rtys) (i : N) (b : list byte) : dres rval :=
  match vs with
  | RNil => Err (ECustom "invalid value: variant index")
  | RCons t r => if (i =? 0)%N then read t b else read_variant read r (N.pred i) b
  end.

(** [Deserialize::deserialize] with room on the stack for so many calls of it inside each other. Simplification: a call takes one unit of the stack,
    whatever the type (a type of Universe.v, whose calls are nested only as deep as it is written, is one call). *)
Fixpoint read (D : types) (stack : nat) (t : rty) (b : list byte) {struct stack} : dres rval :=
  match stack with
  | O => Panic stack_overflow
  | S k =>
      match t with
      | RBase t => let* (v, r) := de t b in Ok (VBase t v, r)
      | RStruct fs =>
          let* (vs, r) := deserialize_tuple (N.of_nat (rfields fs)) (read_fields (read D k) fs 0) b in
          Ok (VStruct vs, r)
      | ROption t =>
          let* (o, r) := de_option (read D k t) b in
          Ok (match o with Some v => VSome v | None => VNone end, r)
      | RVec t => let* (l, r) := de_vec (read D k t) b in Ok (VVec l, r)
      | REnum vs =>
          let* (i, r) := de_u32 b in
          let* (v, r) := read_variant (read D k) vs i r in
          Ok (VVariant i v, r)
      | RBox i => let* (v, r) := read D k (D i) b in Ok (VBox v, r)
      end
  end.

(** [Serialize::serialize], which [Packet::add] and, for the size of what was read, [next_payload] call *)
Fixpoint write (stack : nat) (v : rval) {struct stack} : outcome (list ev) :=
  match stack with
  | O => Panic stack_overflow
  | S k =>
      match v with
      | VBase t v => ser t v
      | VStruct fs => let* r := ser_seq (map (write k) fs) in Ok (EvStruct (N.of_nat (length fs)) :: r)
      | VNone => Ok [EvNone]
      | VSome v => let* r := write k v in Ok (EvSome :: r)
      | VVec l => let* r := ser_seq (map (write k) l) in Ok (EvSeq (N.of_nat (length l)) :: r)
      | VVariant i v => let* r := write k v in Ok (EvVariant i :: r)
      | VBox v => write k v
      end
  end.

(** The type as a payload: [custom_add] and [custom_next] (Custom.v) are [add] and [next_payload]. Simplification: that dropping the value recurses as deep
    again is not modelled. *)
Definition recursive (D : types) (stack : nat) (t : rty) : impl rval := Impl (write stack) (read D stack t).
