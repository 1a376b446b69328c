(** * HistoriesSpec: vocabulary for C143, what happens to a deserializer over any history of calls *)
From Coq Require Import Strings.String.
From Verif Require Import Base Serde Codec Universe Packet Spec Client.
Open Scope nat_scope.

(** The number of bytes of a deserializer's packet (its field [pntr] is public, like [index]). *)
Definition size (d : deserializer) : nat := length (packet_raw (pntr d)).
(** A blob (two bytes for its length, then that many bytes) that is complete is at [i], but it is no key: it has fewer than ten bytes, or starts like a key but is too
    short for one. (Other blobs that are no keys, and incomplete ones, are not broken in this sense.) *)
Definition broken_blob (p : list byte) (i : nat) : Prop :=
  let n := N.to_nat (u16_at p i) in
  i + 2 <= length p /\ i + 2 + n <= length p /\ (n < 10 \/ (n < 74 /\ firstn 10 (skipn (i + 2) p) = ascii "LibNaCLPK:")).
(** A complete blob at [i] that holds a key *)
Definition key_blob (p : list byte) (i : nat) : Prop :=
  let n := N.to_nat (u16_at p i) in
  i + 2 <= length p /\ i + 2 + n <= length p /\ 74 <= n /\ firstn 10 (skipn (i + 2) p) = ascii "LibNaCLPK:".

(** Calls that look at the bytes behind the cursor *)
Definition looks (o : op) : Prop := match o with OVerifyWith _ => False | _ => True end.
(** A verification that fails by panicking, whatever was called before: there is no room for a signature, or there is a broken blob. *)
Definition hopeless (d : deserializer) (o : op) : Prop :=
  match o with OVerifyWith _ => size d < 64 | OVerify => broken_blob (packet_raw (pntr d)) (index d) | _ => False end.
(** A verification that takes bytes for the signature that were read already (in the case of [verify]: that it reads itself, too) *)
Definition cuts_into_read (d : deserializer) (o : op) : Prop :=
  match o with
  | OVerifyWith _ => 64 <= size d < index d + 64
  | OVerify => key_blob (packet_raw (pntr d)) (index d) /\ size d < index d + 76 + 64
  | _ => False
  end.
(** Reading payloads other than authentication payloads; those are what C23 is about. *)
Definition ordinary (o : op) : Prop := match o with ONext t => has_auth t = false | _ => True end.
Definition panicked (r : outcome unit) : Prop := exists x, r = Panic x.
