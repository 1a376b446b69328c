(** * RayonOrder: the order in which rayon takes jobs

    In Rayon.v any thread that looks for a job may take any job. That is right for statements about all executions, but an execution
    found there need not be one of rayon's. This is a restriction of Rayon.v to what rayon does (rayon-core: [WorkerThread::wait_until_cold],
    [take_local_job], [steal], [pop_injected_job]; rayon: [bridge_producer_consumer], [LengthSplitter]):

    - each thread of the pool has a deque; jobs a thread makes (the inner job of [spawn_fifo], the right halves of [join]) are pushed at the back of its own deque. Such a
      job is waited for by the thread that has pushed it, and by nobody else, so who has pushed it can be told from the stacks;
    - a thread that looks for a job takes the one at the back of its own deque; if that is empty it steals one at the front of another thread's deque; if
      all are empty it takes the first of the jobs injected from outside, which are the closures of [scope_fifo] (listeners' threads are outside of the pool);
    - ranges are split in the middle; when rayon stops splitting depends on how often a job has been stolen, which is not modelled: a range may be
      executed without being split any further at any time (a range of one receiver is never split).

    Simplification: looking through the deques is one step (in rayon a job may be pushed meanwhile into a deque already found empty). On a pool of one thread this makes no difference,
    for nobody else pushes there. So Rayon.v has more executions than rayon and is used where a property is proved for any number of threads; with one receiver
    per listener, RayonOrder.v has fewer and is used where a property is refuted (C117, C118); with one thread every execution of rayon is one of RayonOrder.v,
    and properties of one thread are proved there (C120). *)
From Verif Require Import Base Codec Network Pool Rayon.
Open Scope nat_scope.

(** job [id] is waited for by thread [w], and if nobody has taken it, it is in the deque of [w] *)
Definition waits_for (j : job) (id : nat) : Prop :=
  match j with InScope _ _ id' _ => id' = id | InPart _ _ _ js _ => In id js end.
Definition pushed_by (sts : list (list job)) (w id : nat) : Prop :=
  exists st j, nth_error sts w = Some st /\ In j st /\ waits_for j id.
(** none of the jobs [ts] is in the deque of [w] *)
Definition none_pushed_by (sts : list (list job)) (w : nat) (ts : list task) : Prop :=
  forall id i rs, In (TaskPart id i rs) ts -> ~ pushed_by sts w id.

Definition deciding (st : list job) : bool :=
  match st with InPart _ _ _ _ (Deciding _) :: _ => true | _ => false end.

Inductive rayon_step : ry_state -> ry_label -> ry_state -> Prop :=
(** listeners and the outside world: as in Rayon.v *)
| ro_listener s l s' : ry_step s (RListener l) s' -> rayon_step s (RListener l) s'
(** [take_local_job] *)
| ro_take_own ls t1 id i rs t2 w1 st w2 pn ck :
    may_take st = true ->
    pushed_by (w1 ++ st :: w2) (length w1) id -> none_pushed_by (w1 ++ st :: w2) (length w1) t2 ->
    rayon_step (RY ls (t1 ++ TaskPart id i rs :: t2) (w1 ++ st :: w2) pn ck) (RWorker (length w1) None)
      (RY ls (t1 ++ t2) (w1 ++ (InPart ck id i [] (Deciding rs) :: rearm st) :: w2) pn (S ck))
(** [steal] *)
| ro_steal ls t1 id i rs t2 w1 st w2 pn ck victim :
    may_take st = true ->
    none_pushed_by (w1 ++ st :: w2) (length w1) (t1 ++ TaskPart id i rs :: t2) ->
    pushed_by (w1 ++ st :: w2) victim id -> none_pushed_by (w1 ++ st :: w2) victim t1 ->
    rayon_step (RY ls (t1 ++ TaskPart id i rs :: t2) (w1 ++ st :: w2) pn ck) (RWorker (length w1) None)
      (RY ls (t1 ++ t2) (w1 ++ (InPart ck id i [] (Deciding rs) :: rearm st) :: w2) pn (S ck))
(** [pop_injected_job] *)
| ro_injected ls i t2 w1 st w2 pn ck c s :
    may_take st = true -> nth_error ls i = Some (c, s) -> (forall id j rs, ~ In (TaskPart id j rs) t2) ->
    rayon_step (RY ls (TaskScope i :: t2) (w1 ++ st :: w2) pn ck) (RWorker (length w1) None)
      (RY ls (t2 ++ [TaskPart ck i (seq 0 (nc_receivers c))]) (w1 ++ (InScope ck i ck false :: rearm st) :: w2) pn (S ck))
(** [bridge_producer_consumer] *)
| ro_split ls ts w1 b id i js left right st w2 pn ck :
    length left = length (left ++ right) / 2 -> left <> [] ->
    rayon_step (RY ls ts (w1 ++ (InPart b id i js (Deciding (left ++ right)) :: st) :: w2) pn ck) (RWorker (length w1) None)
      (RY ls (ts ++ [TaskPart ck i right]) (w1 ++ (InPart b id i (ck :: js) (Deciding left) :: st) :: w2) pn (S ck))
| ro_sequential ls ts w1 b id i js rs st w2 pn ck :
    rayon_step (RY ls ts (w1 ++ (InPart b id i js (Deciding rs) :: st) :: w2) pn ck) (RWorker (length w1) None)
      (RY ls ts (w1 ++ (InPart b id i js (Looping rs) :: st) :: w2) pn ck)
(** everything else is as in Rayon.v *)
| ro_other s w l s' :
    ry_step s (RWorker w l) s' -> ry_tasks s' = ry_tasks s -> deciding (nth w (ry_stacks s) []) = false ->
    rayon_step s (RWorker w l) s'.

Inductive rayon_run : ry_state -> list ry_label -> ry_state -> Prop :=
| rayon_run_nil s : rayon_run s [] s
| rayon_run_snoc s tr s' l s'' : rayon_run s tr s' -> rayon_step s' l s'' -> rayon_run s (tr ++ [l]) s''.
