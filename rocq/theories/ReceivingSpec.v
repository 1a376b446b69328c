(** * ReceivingSpec: vocabulary of C130 *)
From Verif Require Import Base Codec Network NetSpec.
Open Scope N_scope.

(** The bytes of datagrams that reach the listener: of each one at most as many as the receive buffer has. *)
Definition bytes_received (c : net_config) (ds : list datagram) : N :=
  fold_right (fun d n => N.of_nat (Nat.min (length (fst d)) (nc_buffersize c)) + n) 0 ds.
