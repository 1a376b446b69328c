(** * Parts: [NetworkReceiver]s and [NetworkSender]s used on their own

    In Ipv8.v, Concurrent.v, Compose.v and Parallel.v sockets come from [IPv8::new] and stay in their value until it is started or dropped. But both
    types are public with public constructors, and all fields of [IPv8] are public (lib.rs:32-42): a program can create the parts
    without [IPv8::new], take a value apart, put one together, change its configuration, and start a receiver while it keeps the sender. Here
    is a program on host [h] that does all that, in the world of World.v. Calls run to completion (Parallel.v interleaves those of [new]);
    between them anything can happen, and listeners run all the time. *)
From Coq Require Import Permutation.
From Verif Require Import Base Codec Network NetSpec Ipv8 World WorldSpec.
Open Scope nat_scope.

(** What the program holds; the numbers are those of the sockets in the world. *)
Inductive holding :=
| Receiver (r : nat)                        (* a [NetworkReceiver] (networking/mod.rs:59-64) *)
| Sender (s : nat)                          (* a [NetworkSender] (mod.rs:34-37) *)
| Value (cfg : config) (r s : nat)          (* an [IPv8] (lib.rs:32-42), without its communities (the registry has nothing to do with the sockets) *)
| Listener (r : nat).                       (* the I/O thread of a started receiver (mod.rs:93) *)

(** [pp_once]: [THREADPOOL_START] (lib.rs:46) is complete. [pp_pool]: rayon's global pool and its number of threads. *)
Record program := {
  pp_world : world;
  pp_holds : list holding;
  pp_once : bool;
  pp_pool : option nat }.

Definition program_init : program := {| pp_world := world_init; pp_holds := []; pp_once := false; pp_pool := None |}.

(** What can be seen to happen. *)
Inductive plabel :=
| PNew (cfg : config) (r : outcome (nat * nat))      (* [IPv8::new] returns, with its sockets if it succeeds *)
| PNewReceiver (a : address) (r : outcome nat)       (* [NetworkReceiver::new] returns *)
| PNewSender (a : address) (r : outcome nat)         (* [NetworkSender::new] returns *)
| PTakeApart (cfg : config) (r s : nat)              (* [let IPv8 { config, network_receiver, network_sender, .. } = value] *)
| PPutTogether (cfg : config) (r s : nat)            (* [IPv8 { config, network_receiver, network_sender, communities }] *)
| PAddReceiver (r : nat)                             (* [add_receiver], on a receiver or one inside a value *)
| PStart (cfg : config) (r s : nat)                  (* [IPv8::start] *)
| PStartReceiver (r : nat) (cfg : config)            (* [NetworkReceiver::start] *)
| PDrop (x : holding)                                (* a receiver, sender or value goes out of scope *)
| PSend (s : nat)                                    (* [send], on a sender or one inside a value *)
| PListener (r : nat)                                (* a listening thread does something *)
| PUseRayon (n : nat)                                (* the rest of the program makes rayon set up its global pool *)
| POther.                                            (* other processes and the network *)

(** The first part of [IPv8::new] (lib.rs:52-66): [call_once], [build_global], [s?]. rayon refuses if there is a global pool already, and may fail to start its
    threads. *)
Inductive set_up (cfg : config) : bool -> option nat -> outcome unit -> option nat -> Prop :=
| set_up_done pool : set_up cfg true pool (Ok tt) pool
| set_up_builds : set_up cfg false None (Ok tt) (Some (cf_threadcount cfg))
| set_up_fails pool : set_up cfg false pool (Err EPoolError) pool.

(** The second part (lib.rs:69-76): two binds; if the second fails the receiver is dropped. [k] is the number of the next socket. *)
Inductive bind_both (h k : nat) (cfg : config) : list event -> outcome (nat * nat) -> Prop :=
| bind_both_ok a b :
    bind_both h k cfg
      [WBindReceiver k h (cf_receiving_address cfg) a; WBindSender (S k) h (cf_sending_address cfg) b] (Ok (k, S k))
| bind_both_no_receiver e :
    e <> EPoolError ->
    bind_both h k cfg [WBindFails h (cf_receiving_address cfg) e] (Err e)
| bind_both_no_sender a e :
    e <> EPoolError ->
    bind_both h k cfg
      [WBindReceiver k h (cf_receiving_address cfg) a; WBindFails h (cf_sending_address cfg) e; WClose k] (Err e).

(** dropping closes the sockets; fields in the order of lib.rs:34-42 *)
Definition drop_events (x : holding) : list event :=
  match x with
  | Receiver r => [WClose r]
  | Sender s => [WClose s]
  | Value _ r s => [WClose r; WClose s]
  | Listener _ => []
  end.

(** The sockets of what a program holds *)
Definition sockets_in (x : holding) : list nat :=
  match x with Receiver k | Sender k | Listener k => [k] | Value _ r s => [r; s] end.

(** Events that other processes and the network cause: everything that is not done with a socket of the program. *)
Definition elsewhere (holds : list holding) (e : event) : Prop :=
  match e with
  | WAddReceiver k | WStart k _ | WClose k | WListener k _ | WSend k _ _ | WSendFails k _ _ _ => ~ In k (flat_map sockets_in holds)
  | _ => True
  end.

(** What a step of the program takes out of what it holds, does with sockets, and puts there instead. [k] is the number of the next socket. *)
Inductive uses (h k : nat) : plabel -> list holding -> list event -> list holding -> Prop :=
(* mod.rs:69-79 *)
| uses_new_receiver a b :
    uses h k (PNewReceiver a (Ok k)) [] [WBindReceiver k h a b] [Receiver k]
| uses_new_receiver_fails a e :
    uses h k (PNewReceiver a (Err e)) [] [WBindFails h a e] []
(* mod.rs:41-46 *)
| uses_new_sender a b :
    uses h k (PNewSender a (Ok k)) [] [WBindSender k h a b] [Sender k]
| uses_new_sender_fails a e :
    uses h k (PNewSender a (Err e)) [] [WBindFails h a e] []
(* lib.rs:32-42: public fields, no [Drop] impl *)
| uses_take_apart cfg r s :
    uses h k (PTakeApart cfg r s) [Value cfg r s] [] [Receiver r; Sender s]
| uses_put_together cfg r s :
    uses h k (PPutTogether cfg r s) [Receiver r; Sender s] [] [Value cfg r s]
(* mod.rs:146-148 *)
| uses_add_receiver r :
    uses h k (PAddReceiver r) [Receiver r] [WAddReceiver r] [Receiver r]
| uses_add_receiver_value cfg r s :
    uses h k (PAddReceiver r) [Value cfg r s] [WAddReceiver r] [Value cfg r s]
(* lib.rs:80-82: the rest of the value is dropped *)
| uses_start cfg r s :
    uses h k (PStart cfg r s) [Value cfg r s] [WStart r cfg; WClose s] [Listener r]
(* mod.rs:87-101 *)
| uses_start_receiver r cfg :
    uses h k (PStartReceiver r cfg) [Receiver r] [WStart r cfg] [Listener r]
| uses_drop x :
    (forall r, x <> Listener r) ->
    uses h k (PDrop x) [x] (drop_events x) []
(* mod.rs:49-51; the operating system may refuse *)
| uses_send s p m :
    uses h k (PSend s) [Sender s] [WSend s p m] [Sender s]
| uses_send_value cfg r s p m :
    uses h k (PSend s) [Value cfg r s] [WSend s p m] [Value cfg r s]
| uses_send_fails s p dst e :
    uses h k (PSend s) [Sender s] [WSendFails s p dst e] [Sender s]
| uses_send_value_fails cfg r s p dst e :
    uses h k (PSend s) [Value cfg r s] [WSendFails s p dst e] [Value cfg r s].

(** The first datagram a listener receives makes rayon set up its global pool (mod.rs:132, [scope_fifo] on a thread that is not rayon's) if there is none, with
    [n] threads, rayon's default. (That starting these threads succeeds is a simplification: otherwise rayon panics there.) *)
Inductive dispatches (l : label) (n : nat) : option nat -> option nat -> Prop :=
| dispatches_first : l = LRecv -> dispatches l n None (Some n)
| dispatches_later m : dispatches l n (Some m) (Some m)
| dispatches_nothing : l <> LRecv -> dispatches l n None None.

Inductive parts_step (T : topology) (h : nat) : program -> plabel -> list event -> program -> Prop :=
| parts_uses p l taken evs given rest w' :
    uses h (length (w_sockets (pp_world p))) l taken evs given ->
    Permutation (pp_holds p) (taken ++ rest) ->
    wrun T (pp_world p) evs w' ->
    parts_step T h p l evs {| pp_world := w'; pp_holds := given ++ rest; pp_once := pp_once p; pp_pool := pp_pool p |}
| parts_new_no_pool p cfg e pool' :
    set_up cfg (pp_once p) (pp_pool p) (Err e) pool' ->
    parts_step T h p (PNew cfg (Err e)) []
      {| pp_world := pp_world p; pp_holds := pp_holds p; pp_once := true; pp_pool := pool' |}
| parts_new p cfg pool' evs r w' :
    set_up cfg (pp_once p) (pp_pool p) (Ok tt) pool' ->
    bind_both h (length (w_sockets (pp_world p))) cfg evs r ->
    wrun T (pp_world p) evs w' ->
    parts_step T h p (PNew cfg r) evs
      {| pp_world := w';
         pp_holds := match r with Ok (a, b) => [Value cfg a b] | _ => [] end ++ pp_holds p;
         pp_once := true; pp_pool := pool' |}
| parts_listener p k l n w' s rest pool' :
    Permutation (pp_holds p) (Listener k :: rest) ->
    wstep T (pp_world p) (WListener k l) w' ->
    nth_error (w_sockets w') k = Some s ->
    dispatches l n (pp_pool p) pool' ->
    parts_step T h p (PListener k) [WListener k l]
      {| pp_world := w'; pp_holds := (if is_open (sk_end s) then [Listener k] else []) ++ rest;
         pp_once := pp_once p; pp_pool := pool' |}
| parts_use_rayon p n :
    pp_pool p = None ->
    parts_step T h p (PUseRayon n) []
      {| pp_world := pp_world p; pp_holds := pp_holds p; pp_once := pp_once p; pp_pool := Some n |}
| parts_other p e w' :
    elsewhere (pp_holds p) e ->
    wstep T (pp_world p) e w' ->
    parts_step T h p POther [e]
      {| pp_world := w'; pp_holds := pp_holds p; pp_once := pp_once p; pp_pool := pp_pool p |}.

(** Executions *)
Inductive parts_run (T : topology) (h : nat) : program -> list (plabel * list event) -> program -> Prop :=
| parts_nil p : parts_run T h p [] p
| parts_snoc p tr p' l evs p'' : parts_run T h p tr p' -> parts_step T h p' l evs p'' -> parts_run T h p (tr ++ [(l, evs)]) p''.
Definition parts_events (tr : list (plabel * list event)) : list event := flat_map snd tr.
