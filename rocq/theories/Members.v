(** * Members: communities with state in a registry (community/mod.rs)

    Community.v with the simplifications about user code taken back: what [get_mid] and the handlers do may depend on and change a state [S] shared by everything in the program
    (interior mutability, locks, globals), [get_mid] may answer differently each time or panic, a community may override [receive] although the documentation asks not to,
    and the life of a community ends with its [Drop] impl. A handler that itself calls [forward_message] is such a function of the state; what the inner calls do is not recorded.
    Simplified: [drop] does not panic. *)
From Coq Require Import Strings.String Permutation.
From Verif Require Import Base Serde Codec Universe Packet Community.
Open Scope nat_scope.

Section State.
Context {S : Type}.

(** user code that gets a message: the state before, the state after, and how it ends *)
Definition handler := header -> deserializer -> address -> S -> S * outcome unit.

(** A value of a type implementing [trait Community] (mod.rs:38-121). [m_get_mid] yields [None] if it panics; [m_receive] is there if the impl overrides [receive]. *)
Record member := {
  m_name : nat;
  m_get_mid : S -> S * option (list byte);
  m_on_receive : handler;
  m_receive : option handler;
  m_drop : S -> S }.

(** What user code sees, and warnings *)
Inductive happening :=
| AskedMid (m : member) (answer : option (list byte))
| Called (m : member) (h : header) (d : deserializer) (from : address)       (* on_receive *)
| Overridden (m : member) (h : header) (d : deserializer) (from : address)   (* its own receive *)
| WarnedOf (message : string) (from : address)
| Dropped (m : member).

(** the communities' map (mod.rs:127-134): see Community.v; [insert] gives back the value it replaces *)
Definition roster := list (list byte * member).
Fixpoint insert (k : list byte) (v : member) (r : roster) : roster * option member :=
  match r with
  | [] => ([(k, v)], None)
  | (k', v') :: r => if bytes_eqb k k' then ((k, v) :: r, Some v') else let (r, old) := insert k v r in ((k', v') :: r, old)
  end.
Fixpoint lookup (k : list byte) (r : roster) : option member :=
  match r with
  | [] => None
  | (k', v') :: r => if bytes_eqb k k' then Some v' else lookup k r
  end.

(** [CommunityRegistry::add_community] (mod.rs:138-144): [get_mid] first; if it panics, [item] is dropped while unwinding; a community that is replaced is dropped at the end of the call *)
Definition add_member (r : roster) (item : member) (s : S) : list happening * S * roster * outcome unit :=
  match m_get_mid item s with
  | (s, None) => ([AskedMid item None; Dropped item], m_drop item s, r, Panic (PUser 0))
  | (s, Some mid) =>
      match insert mid item r with
      | (r, None) => ([AskedMid item (Some mid)], s, r, Ok tt)
      | (r, Some old) => ([AskedMid item (Some mid); Dropped old], m_drop old s, r, Ok tt)
      end
  end.

(** the member as Community.v has it, in the state [s] *)
Definition frozen (m : member) (s : S) : community :=
  {| c_tag := m_name m; c_mid := []; c_on_receive := fun h d a => snd (m_on_receive m h d a s) |}.

(** [community.receive(header, deserializer, address)]: the impl's own, or the default (mod.rs:63-109, [receive] of Community.v), which calls [on_receive] at most once, at its end *)
Definition member_receive (m : member) (h : header) (d : deserializer) (a : address) (s : S) : list happening * S * outcome unit :=
  match m_receive m with
  | Some f => let (s', o) := f h d a s in ([Overridden m h d a], s', o)
  | None =>
      match receive (frozen m s) h d a with
      | ([Handled _ h' d' a'], o) => ([Called m h' d' a'], fst (m_on_receive m h' d' a' s), o)
      | (effs, o) => (flat_map (fun e => match e with Warned w f => [WarnedOf w f] | Handled _ _ _ _ => [] end) effs, s, o)
      end
  end.

(** [CommunityRegistry::forward_message] (mod.rs:147-164) *)
Definition forward_to_member (r : roster) (p : packet) (a : address) (s : S) : list happening * S * outcome unit :=
  let d := start_deserialize p in
  match peek_header d with
  | Err e => ([], s, Err e)
  | Panic q => ([], s, Panic q)
  | Ok h =>
      match h_mid_hash h with
      | None => ([], s, Err EMidError)
      | Some mid =>
          match lookup mid r with
          | None => ([], s, Err EUnknownCommunityError)
          | Some m => member_receive m h d a s
          end
      end
  end.

(** What a program does with its registry, one after the other; it may go on after a panic. Between the calls the program may change the state. *)
Inductive op :=
| Add (item : member)
| Forward (p : packet) (a : address)
| Elsewhere (f : S -> S).

Definition one_op (o : op) (r : roster) (s : S) : list happening * S * roster :=
  match o with
  | Add item => fst (add_member r item s)
  | Forward p a => (fst (fst (forward_to_member r p a s)), snd (fst (forward_to_member r p a s)), r)
  | Elsewhere f => ([], f s, r)
  end.
Fixpoint ops (l : list op) (r : roster) (s : S) : list happening * S * roster :=
  match l with
  | [] => ([], s, r)
  | o :: l =>
      let '(h1, s1, r1) := one_op o r s in
      let '(h2, s2, r2) := ops l r1 s1 in
      (h1 ++ h2, s2, r2)
  end.

(** the end of the registry: its communities are dropped, in the order of the map, which is arbitrary *)
Fixpoint drop_all (l : list member) (s : S) : list happening * S :=
  match l with
  | [] => ([], s)
  | m :: l => let (h, s) := drop_all l (m_drop m s) in (Dropped m :: h, s)
  end.
Inductive lifetime : list op -> S -> list happening -> S -> Prop :=
| life l s0 h s r order h' s' :
    ops l [] s0 = (h, s, r) -> Permutation order (map snd r) -> drop_all order s = (h', s') -> lifetime l s0 (h ++ h') s'.

End State.
Arguments member : clear implicits.
Arguments op : clear implicits.
Arguments happening : clear implicits.
