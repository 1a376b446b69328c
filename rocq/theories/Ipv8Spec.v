(** * Ipv8Spec: vocabulary for properties of IPv8 instances and their sockets *)
From Coq Require Import Strings.String Numbers.DecimalString.
From Verif Require Import Base Serde Codec Universe Packet Community Network Ipv8.
Open Scope nat_scope.

(** two sockets cannot be open at the same time: same port, and same host or one of them on all hosts *)
Definition clash (a b : address) : Prop :=
  addr_port a = addr_port b /\
  (addr_ip a = addr_ip b \/ Forall (eq x00) (addr_ip a) \/ Forall (eq x00) (addr_ip b)).
Definition is_new (c : call) : Prop := match c with CNew _ _ => True | _ => False end.
(** the histories considered: any calls, from a process in which the rest of the program holds some sockets *)
Definition after (others : list address) (l : list call) : process := do_calls (process_init others) l.

(** no two of these sockets clash *)
Definition disjoint (l : list address) : Prop := ForallOrdPairs (fun a b => ~ clash a b) l.

(** receivers and communities added to slot [k] in a history, in order *)
Fixpoint receivers_added (k : nat) (l : list call) : list nat :=
  match l with
  | [] => []
  | CAddReceiver i r :: t => if i =? k then r :: receivers_added k t else receivers_added k t
  | _ :: t => receivers_added k t
  end.
Fixpoint communities_added (k : nat) (l : list call) : list community :=
  match l with
  | [] => []
  | CAddCommunity i c :: t => if i =? k then c :: communities_added k t else communities_added k t
  | _ :: t => communities_added k t
  end.
Definition adds_receiver (c : call) : Prop := match c with CAddReceiver _ _ => True | _ => False end.

(** every address in the default configuration *)
Definition default_addresses : list address :=
  cf_sending_address config_default :: cf_receiving_address config_default :: cf_default_hosts config_default.

(** an IPv4 address as people write it *)
Definition decimal (n : N) : string := NilZero.string_of_uint (N.to_uint n).
Definition dotted (a : address) : string :=
  match a with
  | V4 a b c d port =>
      (decimal (Byte.to_N a) ++ "." ++ decimal (Byte.to_N b) ++ "." ++ decimal (Byte.to_N c) ++ "." ++ decimal (Byte.to_N d) ++ ":" ++ decimal port)%string
  | V6 _ _ _ _ => "not IPv4"%string
  end.
