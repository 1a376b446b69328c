(** * Community: community/mod.rs and community/peer.rs *)
From Coq Require Import Strings.String.
From Verif Require Import Base Serde Codec Universe Packet Sha1.
Open Scope nat_scope.

(** ** community/peer.rs *)

(** [pub struct Peer] (peer.rs:8-17) *)
Record peer := Peer { peer_key : list byte; peer_address : address; peer_intro : bool }.

(** [Peer::new] (peer.rs:21-27) *)
Definition peer_new (key : list byte) (addr : address) (intro : bool) : peer := Peer key addr intro.

(** [Peer::get_sha1] (peer.rs:31-33) *)
Definition get_sha1 (p : peer) : list byte := sha1 (peer_key p).

(** ** community/mod.rs *)

(** A value of a type implementing [trait Community] (mod.rs:38-121): what [get_mid] returns, and user
    code [on_receive] as an arbitrary function. [c_tag] stands for the identity of the object, so that
    traces can say who was called. Simplifications: [get_mid] is constant (it is only called once, when
    the community is registered), and one call of the handler is a function of its arguments (theorems
    quantify over all such functions). The constructor [Community::new] is user code, never called
    by the library. *)
Record community := {
  c_tag : nat;
  c_mid : list byte;
  c_on_receive : header -> deserializer -> address -> outcome unit }.

(** What can be observed of a call. *)
Inductive effect :=
| Warned (message : string) (from : address)
| Handled (tag : nat) (h : header) (d : deserializer) (from : address).

(** [fn warn_deprecated] (mod.rs:75-87); the counter only exists in tests *)
Definition warn_deprecated (message : string) (addr : address) : list effect * outcome unit :=
  ([Warned message addr], Ok tt).

(** the call [self.on_receive(header, deserializer, address)] *)
Definition on_receive (c : community) (h : header) (d : deserializer) (a : address)
  : list effect * outcome unit :=
  ([Handled (c_tag c) h d a], c_on_receive c h d a).

(** [Community::receive] (mod.rs:63-109) *)
Definition receive (c : community) (h : header) (d : deserializer) (a : address)
  : list effect * outcome unit :=
  match h_message_type h with
  | None => ([], Err EHeaderUnwrapError)
  | Some t =>
      match t with
      | 255%N => warn_deprecated "reserved-255" a
      | 254%N => warn_deprecated "on-missing-sequence" a
      | 253%N => warn_deprecated "missing-proof" a
      | 252%N => warn_deprecated "signature-request" a
      | 251%N => warn_deprecated "signature-response" a
      | 248%N => warn_deprecated "on-identity" a
      | 247%N => warn_deprecated "on-missing-identity" a
      | 244%N => warn_deprecated "destroy-community" a
      | 243%N => warn_deprecated "authorize" a
      | 242%N => warn_deprecated "revoke" a
      | 241%N => warn_deprecated "subjective-set" a
      | 240%N => warn_deprecated "missing-subjective-set" a
      | 239%N => warn_deprecated "on-missing-message" a
      | 238%N => warn_deprecated "undo-own" a
      | 237%N => warn_deprecated "undo-other" a
      | 236%N => warn_deprecated "dynamic-settings" a
      | 235%N => warn_deprecated "missing-last-message" a
      | _ => on_receive c h d a
      end
  end.

(** [pub struct CommunityRegistry] (mod.rs:127-134): a [HashMap], as an association list with at most
    one entry per key ([HashMap::insert] replaces the value of a key already present). The map is never
    iterated over, so the order of the entries is not observable. *)
Definition registry := list (list byte * community).

Fixpoint map_insert (k : list byte) (v : community) (m : registry) : registry :=
  match m with
  | [] => [(k, v)]
  | (k', v') :: r => if bytes_eqb k k' then (k, v) :: r else (k', v') :: map_insert k v r
  end.
Fixpoint map_get (k : list byte) (m : registry) : option community :=
  match m with
  | [] => None
  | (k', v') :: r => if bytes_eqb k k' then Some v' else map_get k r
  end.

(** [CommunityRegistry::default] (mod.rs:167-175) *)
Definition registry_default : registry := [].

(** [CommunityRegistry::add_community] (mod.rs:138-144) *)
Definition add_community (r : registry) (item : community) : registry * outcome unit :=
  (map_insert (c_mid item) item r, Ok tt).

(** [CommunityRegistry::forward_message] (mod.rs:147-164) *)
Definition forward_message (r : registry) (p : packet) (a : address) : list effect * outcome unit :=
  let d := start_deserialize p in
  match peek_header d with
  | Err e => ([], Err e)
  | Panic q => ([], Panic q)
  | Ok h =>
      match h_mid_hash h with
      | None => ([], Err EMidError)
      | Some mid =>
          match map_get mid r with
          | None => ([], Err EUnknownCommunityError)
          | Some c => receive c h d a
          end
      end
  end.
