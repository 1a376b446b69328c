(** * Compose: an IPv8 process and the network it talks to, together

    Ipv8.v models what one process does with its [IPv8] values (which succeed, which sockets they own) without saying what the sockets
    do. World.v models what sockets do, without saying which value owns which. Here both run side by side: every call of lib.rs is
    performed on both, and the sockets behind each instance and each started listener are named. Other processes, on the same host or
    elsewhere, do whatever World.v allows with their own sockets. *)
From Verif Require Import Base Codec Network NetSpec Ipv8 World WorldSpec.
Open Scope nat_scope.

(** [struct IPv8] (lib.rs:33-43): the numbers, in the world, of the sockets in [network_receiver] and [network_sender] of each live
    instance (in the same slots as [pr_instances]), and of the sockets of the listeners that run (in the order of [pr_listeners]). *)
Record joint := {
  j_process : process;
  j_world : world;
  j_instances : list (option (nat * nat));
  j_listeners : list nat }.

Definition joint_init : joint := {|
  j_process := process_init []; j_world := world_init; j_instances := []; j_listeners := [] |}.

Definition numbers (o : option (nat * nat)) : list nat :=
  match o with Some (a, b) => [a; b] | None => [] end.
(** the sockets of the process *)
Definition owned (j : joint) : list nat := flat_map numbers (j_instances j) ++ j_listeners j.

Definition socket_numbers (j : joint) (i : nat) : option (nat * nat) :=
  match nth_error (j_instances j) i with Some (Some x) => Some x | _ => None end.

(** [IPv8::new] (lib.rs:51-77), [NetworkReceiver::new], [NetworkSender::new] (networking/mod.rs:41-46, 69-79) on host [h]: what it
    does to sockets; the next one created has number [k]. When the second [bind] fails, [?] drops the receiver. *)
Definition new_events (h k : nat) (env : environment) (cfg : config) (p : process) : list event :=
  match setup_pool env cfg p with
  | (p1, Ok _) =>
      match os_bind env (open_sockets p1) (cf_receiving_address cfg) with
      | Ok r =>
          WBindReceiver k h (cf_receiving_address cfg) r ::
          match os_bind env (r :: open_sockets p1) (cf_sending_address cfg) with
          | Ok s => [WBindSender (S k) h (cf_sending_address cfg) s]
          | Err e => [WBindFails h (cf_sending_address cfg) e; WClose k]
          | Panic _ => []
          end
      | Err e => [WBindFails h (cf_receiving_address cfg) e]
      | Panic _ => []
      end
  | _ => []
  end.

(** What a call does to sockets. [add_receiver] (mod.rs:146-148). [start] (lib.rs:80-82, mod.rs:87-101) hands the receiving socket to the
    I/O thread, with the configuration; the rest of the instance, and with it the sending socket, is dropped. Dropping an instance
    drops both sockets. *)
Definition call_events (h : nat) (j : joint) (c : call) : list event :=
  match c with
  | CNew env cfg => new_events h (length (w_sockets (j_world j))) env cfg (j_process j)
  | CAddReceiver i _ => match socket_numbers j i with Some (a, _) => [WAddReceiver a] | None => [] end
  | CAddCommunity _ _ => []
  | CStart i =>
      match socket_numbers j i, get_instance (j_process j) i with
      | Some (a, b), Some v => [WStart a (iv_config v); WClose b]
      | _, _ => []
      end
  | CDrop i => match socket_numbers j i with Some (a, b) => [WClose a; WClose b] | None => [] end
  | CListenerEnds _ => []
  end.
Definition call_instances (j : joint) (c : call) : list (option (nat * nat)) :=
  match c with
  | CNew env cfg =>
      match snd (ipv8_new env cfg (j_process j)) with
      | Ok _ => j_instances j ++ [Some (length (w_sockets (j_world j)), S (length (w_sockets (j_world j))))]
      | _ => j_instances j
      end
  | CStart i | CDrop i => set_nth i None (j_instances j)
  | _ => j_instances j
  end.
Definition call_listeners (j : joint) (c : call) : list nat :=
  match c with
  | CStart i => match socket_numbers j i with Some (a, _) => j_listeners j ++ [a] | None => j_listeners j end
  | _ => j_listeners j
  end.

(** Events that are not operations of this process on its [IPv8] values or listeners: everything about other sockets (of other
    processes, on any host), what the network does, and sending ([network_sender] is a public field, lib.rs:36). *)
Definition elsewhere (j : joint) (e : event) : Prop :=
  match e with
  | WAddReceiver k | WStart k _ | WClose k | WListener k _ => ~ In k (owned j)
  | _ => True
  end.

(** [jstep T h j c evs j']: one step of the process on host [h], or of the rest of the world; [c] is the step as Ipv8.v sees it, [evs] as World.v
    does. [CListenerEnds] is not chosen freely: a listener ends when its last step closes its socket (mod.rs:93-100). *)
Inductive jstep (T : topology) (h : nat) : joint -> option call -> list event -> joint -> Prop :=
| jstep_call j c w' :
    (forall i, c <> CListenerEnds i) ->
    wrun T (j_world j) (call_events h j c) w' ->
    jstep T h j (Some c) (call_events h j c)
      {| j_process := do_call (j_process j) c; j_world := w';
         j_instances := call_instances j c; j_listeners := call_listeners j c |}
| jstep_listener j i k l w' s :
    nth_error (j_listeners j) i = Some k ->
    wstep T (j_world j) (WListener k l) w' ->
    nth_error (w_sockets w') k = Some s -> is_open (sk_end s) = true ->
    jstep T h j None [WListener k l]
      {| j_process := j_process j; j_world := w';
         j_instances := j_instances j; j_listeners := j_listeners j |}
| jstep_listener_ends j i k l w' s :
    nth_error (j_listeners j) i = Some k ->
    wstep T (j_world j) (WListener k l) w' ->
    nth_error (w_sockets w') k = Some s -> is_open (sk_end s) = false ->
    jstep T h j (Some (CListenerEnds i)) [WListener k l]
      {| j_process := do_call (j_process j) (CListenerEnds i); j_world := w';
         j_instances := j_instances j;
         j_listeners := firstn i (j_listeners j) ++ skipn (S i) (j_listeners j) |}
| jstep_elsewhere j e w' :
    elsewhere j e -> wstep T (j_world j) e w' ->
    jstep T h j None [e]
      {| j_process := j_process j; j_world := w';
         j_instances := j_instances j; j_listeners := j_listeners j |}.

(** Executions *)
Inductive jrun (T : topology) (h : nat) : list (option call * list event) -> joint -> Prop :=
| jrun_nil : jrun T h [] joint_init
| jrun_snoc tr j c evs j' : jrun T h tr j -> jstep T h j c evs j' -> jrun T h (tr ++ [(c, evs)]) j'.

(** The same execution as the process sees it, and as the world sees it. *)
Definition calls_of (tr : list (option call * list event)) : list call :=
  flat_map (fun x => match fst x with Some c => [c] | None => [] end) tr.
Definition events_of (tr : list (option call * list event)) : list event := flat_map snd tr.

(** The operating system, when it lets this process bind an address, takes the sockets of the other processes of the host into
    account (the process's own ones are in [os_bind]), and its ephemeral ports are ports. *)
Definition sees_the_host (env : environment) (h : nat) (j : joint) : Prop :=
  forall bound requested actual, os_bind env bound requested = Ok actual ->
    addr_port actual <> 0%N /\
    forall k a, open_at (j_world j) k h a -> ~ In k (owned j) -> conflict actual a = false.
