(** * Client: small programs written against the API, used to state properties about histories

    Nothing here models code of /repo: these are callers of it. *)
From Coq Require Import Strings.String.
From Verif Require Import Base Serde Codec Universe Packet Spec.
Open Scope nat_scope.

(** A payload with its type. *)
Definition payload := { t : ty & tval t }.
Definition ptype (x : payload) : ty := projT1 x.

(** Add payloads one after the other; stop at the first failure. *)
Fixpoint add_all (p : packet) (l : list payload) : outcome packet :=
  match l with
  | [] => Ok p
  | existT _ t v :: r =>
      match packet_add t p v with
      | (p', Ok _) => add_all p' r
      | (_, Err e) => Err e
      | (_, Panic q) => Panic q
      end
  end.

(** Read payloads of the given types one after the other; stop at the first failure. *)
Fixpoint read_all (d : deserializer) (ts : list ty) : deserializer * outcome (list payload) :=
  match ts with
  | [] => (d, Ok [])
  | t :: r =>
      match next_payload t d with
      | (d', Ok v) =>
          match read_all d' r with
          | (d'', Ok l) => (d'', Ok (existT _ t v :: l))
          | (d'', Err e) => (d'', Err e)
          | (d'', Panic q) => (d'', Panic q)
          end
      | (d', Err e) => (d', Err e)
      | (d', Panic q) => (d', Panic q)
      end
  end.

(** The fields of a struct, in order, as payloads. *)
Fixpoint fields (fs : tys) : tvals fs -> list payload :=
  match fs with
  | FNil => fun _ => []
  | FCons t r => fun v => existT _ t (fst v) :: fields r (snd v)
  end.

(** Do [second] with what the first read gave; stop at the first failure. *)
Definition and_then {A B} (first : deserializer * outcome A) (second : deserializer -> A -> deserializer * outcome B)
    : deserializer * outcome B :=
  match first with
  | (d, Ok x) => second d x
  | (d, Err e) => (d, Err e)
  | (d, Panic q) => (d, Panic q)
  end.
(** Read the fields of a struct one after the other. *)
Fixpoint read_fields (fs : tys) (d : deserializer) : deserializer * outcome (tvals fs) :=
  match fs with
  | FNil => (d, Ok tt)
  | FCons t r =>
      and_then (next_payload t d) (fun d x =>
      and_then (read_fields r d) (fun d xs => (d, Ok (x, xs))))
  end.
(** Read [n] values of the same type one after the other. *)
Fixpoint read_n (t : ty) (n : nat) (d : deserializer) : deserializer * outcome (list (tval t)) :=
  match n with
  | O => (d, Ok [])
  | S n =>
      and_then (next_payload t d) (fun d x =>
      and_then (read_n t n d) (fun d xs => (d, Ok (x :: xs))))
  end.
(** A read made of others: when it fails the deserializer is back at [d]. *)
Definition or_stay {A B} (d : deserializer) (f : A -> B) (r : deserializer * outcome A) : deserializer * outcome B :=
  match r with
  | (d', Ok v) => (d', Ok (f v))
  | (_, Err e) => (d, Err e)
  | (_, Panic q) => (d, Panic q)
  end.

(** Everything a holder of a [PacketDeserializer] can call on it. *)
Inductive op :=
| OPeek
| OPop
| ONext (t : ty)
| OVerifyWith (key : list byte)
| OVerify.

Definition forget {A} (o : outcome A) : outcome unit :=
  match o with Ok _ => Ok tt | Err e => Err e | Panic p => Panic p end.

Definition do_op (C : ed25519) (d : deserializer) (o : op) : deserializer * outcome unit :=
  match o with
  | OPeek => (d, forget (peek_header d))
  | OPop => let '(d', r) := pop_header d in (d', forget r)
  | ONext t => let '(d', r) := next_payload t d in (d', forget r)
  | OVerifyWith key => let '(d', r) := verify_with C key d in (d', forget r)
  | OVerify => let '(d', r) := verify_embedded C d in (d', forget r)
  end.

(** A history of calls, with all their results; a caught panic does not stop it. *)
Fixpoint do_ops (C : ed25519) (d : deserializer) (l : list op) : deserializer * list (outcome unit) :=
  match l with
  | [] => (d, [])
  | o :: r =>
      let '(d', x) := do_op C d o in
      let '(d'', xs) := do_ops C d' r in
      (d'', x :: xs)
  end.

Definition is_read (o : op) : bool :=
  match o with OPeek | OPop | ONext _ => true | _ => false end.

(** Put a packet into another one, as nested packet behind what that one holds already. *)
Fixpoint enclose_all (outers : list packet) (inner : packet) : outcome packet :=
  match outers with
  | [] => Ok inner
  | o :: r =>
      match packet_add TNested o (NestedPacket inner) with
      | (q, Ok _) => enclose_all r q
      | (_, Err e) => Err e
      | (_, Panic e) => Panic e
      end
  end.
(** Take the innermost packet out again, knowing how many bytes precede each nested packet
    (outermost first). *)
Fixpoint disclose_all (offsets : list nat) (p : packet) : outcome packet :=
  match offsets with
  | [] => Ok p
  | i :: r =>
      match next_payload TNested {| pntr := p; index := i |} with
      | (_, Ok n) => disclose_all r (nested_inner n)
      | (_, Err e) => Err e
      | (_, Panic e) => Panic e
      end
  end.

(** In a sequence of payloads only the last one may end in raw bytes. *)
Fixpoint readable_sequence (self_delimiting raw_at_end_only : ty -> bool) (ts : list ty) : bool :=
  match ts with
  | [] => true
  | [t] => raw_at_end_only t
  | t :: r => self_delimiting t && readable_sequence self_delimiting raw_at_end_only r
  end.

(** ** More callers, for histories with signatures *)
(** Number of calls of [verify_with] that returned, and of [verify] calls, in a history. *)
Fixpoint verify_with_returned (l : list op) (rs : list (outcome unit)) : nat :=
  match l, rs with
  | OVerifyWith _ :: l', r :: rs' => (if is_ok r then 1 else 0) + verify_with_returned l' rs'
  | _ :: l', _ :: rs' => verify_with_returned l' rs'
  | _, _ => 0
  end.
Fixpoint verify_returned (l : list op) (rs : list (outcome unit)) : nat :=
  match l, rs with
  | OVerify :: l', r :: rs' => (if is_ok r then 1 else 0) + verify_returned l' rs'
  | _ :: l', _ :: rs' => verify_returned l' rs'
  | _, _ => 0
  end.

(** Sign with one key after the other. *)
Fixpoint sign_all {C} (ks : list (keypair C)) (p : packet) : outcome packet :=
  match ks with
  | [] => Ok p
  | k :: r =>
      match packet_sign p k with
      | Ok q => sign_all r q
      | Err e => Err e
      | Panic x => Panic x
      end
  end.

(** Verify and strip with one public key after the other. *)
Fixpoint verify_all (C : ed25519) (pks : list (list byte)) (d : deserializer) : deserializer * outcome (list bool) :=
  match pks with
  | [] => (d, Ok [])
  | pk :: r =>
      match verify_with C pk d with
      | (d', Ok b) => let '(d'', o) := verify_all C r d' in (d'', let* bs := o in Ok (b :: bs))
      | (d', Err e) => (d', Err e)
      | (d', Panic x) => (d', Panic x)
      end
  end.

(** Operations that read an authentication payload (where panics are possible, C23). *)
Definition reads_auth (o : op) : bool :=
  match o with ONext t => has_auth t | OVerify => true | _ => false end.

Definition sum (l : list nat) : nat := fold_right Nat.add 0 l.
(** what arrives when this payload is sent *)
Definition transmitted_payload (x : payload) : payload := existT _ (projT1 x) (transmitted (projT1 x) (projT2 x)).
