(** * CustomSpec: what C97 and C98 say, independently of the model's helpers *)
From Coq Require Import Strings.String Sorting.Sorted.
From Verif Require Import Base Serde Codec Universe Spec Packet Custom.
Open Scope nat_scope.

(** The value is serialized to these bytes. *)
Definition serializes {A} (I : impl A) (x : A) (bytes : list byte) : Prop :=
  exists cs, calls I x = Ok cs /\ bincode_write cs = bytes.

(** The impls fit together for this value: whatever follows its bytes, it is read back from them. *)
Definition fits {A} (I : impl A) (x : A) : Prop :=
  exists bytes, serializes I x bytes /\ forall rest, parse I (bytes ++ rest) = Ok (x, rest).

(** Several payloads, each of its own type *)
Record item := Item { item_type : Type; item_impl : impl item_type; item_value : item_type }.
Arguments Item {item_type}.
Fixpoint add_items (l : list item) (p : packet) : packet * outcome unit :=
  match l with
  | [] => (p, Ok tt)
  | Item im x :: l =>
      match custom_add im p x with
      | (p', Ok _) => add_items l p'
      | r => r
      end
  end.
(** Reads payloads of the same types, in the same order, and compares: every one is read as it was added; then the cursor is at [stop]. *)
Fixpoint reads_items (l : list item) (d : deserializer) (stop : nat) : Prop :=
  match l with
  | [] => index d = stop
  | Item im x :: l => snd (custom_next im d) = Ok x /\ reads_items l (fst (custom_next im d)) stop
  end.

(** A total order, as [Ord] demands it *)
Record total_order {A} (cmp : A -> A -> comparison) : Prop := {
  cmp_eq : forall x y, cmp x y = Eq <-> x = y;
  cmp_gt : forall x y, cmp x y = Gt <-> cmp y x = Lt;
  cmp_lt_trans : forall x y z, cmp x y = Lt -> cmp y z = Lt -> cmp x z = Lt
}.

Section Maps.
Context {k v : ty} (cmp : tval k -> tval k -> comparison).

Definition ascending (m : list (tval (entry k v))) : Prop :=
  StronglySorted (fun e f => cmp (key_of k v e) (key_of k v f) = Lt) m.
(** The value of the last entry with this key *)
Fixpoint lookup (x : tval k) (l : list (tval (entry k v))) : option (tval v) :=
  match l with
  | [] => None
  | e :: l =>
      match lookup x l with
      | Some y => Some y
      | None => match cmp (key_of k v e) x with Eq => Some (value_of k v e) | _ => None end
      end
  end.
(** The bytes of the entries that a later entry with the same key replaces *)
Fixpoint replaced_bytes (l : list (tval (entry k v))) : nat :=
  match l with
  | [] => 0
  | e :: l =>
      (match lookup (key_of k v e) l with Some _ => length (layout (entry k v) e) | None => 0 end) + replaced_bytes l
  end.
End Maps.
