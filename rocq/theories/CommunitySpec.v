(** * CommunitySpec: vocabulary for properties of the community registry *)
From Coq Require Import Strings.String.
From Verif Require Import Base Serde Codec Universe Packet Community.
Open Scope nat_scope.

(** A registry after a sequence of [add_community] calls. *)
Definition registered (cs : list community) : registry :=
  fold_left (fun r c => fst (add_community r c)) cs registry_default.

(** Message types of the old protocol, as listed in the documentation of [Community::receive]'s match. *)
Definition deprecated (t : N) : bool :=
  existsb (N.eqb t) [235; 236; 237; 238; 239; 240; 241; 242; 243; 244; 247; 248; 251; 252; 253; 254; 255]%N.

(** The messages of the old protocol and their names (rows of the same match). *)
Definition old_protocol_messages : list (N * string) :=
  [(235, "missing-last-message"); (236, "dynamic-settings"); (237, "undo-other"); (238, "undo-own");
   (239, "on-missing-message"); (240, "missing-subjective-set"); (241, "subjective-set"); (242, "revoke");
   (243, "authorize"); (244, "destroy-community"); (247, "on-missing-identity"); (248, "on-identity");
   (251, "signature-response"); (252, "signature-request"); (253, "missing-proof");
   (254, "on-missing-sequence"); (255, "reserved-255")]%N%string.
