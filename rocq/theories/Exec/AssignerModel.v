(** Model of the driver's task assigner and worker pool.
    Source: crates/sail-execution/src/driver/task_assigner/{core.rs,state.rs},
    crates/sail-execution/src/task/scheduling.rs,
    crates/sail-execution/src/driver/worker_pool/core.rs and the handlers of
    crates/sail-execution/src/driver/actor/handler.rs that combine them. *)
From stdpp Require Import prelude list.
From Verif.Exec Require Import GraphModel.

(** id.rs [TaskKey] *)
Record key := Key { k_job : nat; k_stage : nat; k_partition : nat; k_attempt : nat }.
Global Instance key_eqdec : EqDecision key.
Proof. solve_decision. Defined.

(** task/scheduling.rs:41-48 [TaskOutputKind] *)
Inductive out_kind := OLocal | OStorage | OExternal.
Global Instance out_kind_eqdec : EqDecision out_kind.
Proof. solve_decision. Defined.

(** task/scheduling.rs:20-38 [TaskSet], [TaskRegion] *)
Definition task_set := list (key * out_kind).
Definition region := list (placement * task_set).
(** task/scheduling.rs:54-57 [TaskSet::tasks] *)
Definition set_tasks (s : task_set) : list key := map fst s.
(** task/scheduling.rs:59-78: the streams of one kind *)
Definition set_streams (o : out_kind) (s : task_set) : list key :=
  map fst (filter (fun e => e.2 = o) s).
(** task/scheduling.rs:50-53 [TaskRegion::contains] *)
Definition region_contains (k : key) (r : region) : bool :=
  existsb (fun ps => existsb (fun e => bool_decide (e.1 = k)) ps.2) r.

(** task/scheduling.rs:92-96 [TaskAssignment] *)
Inductive place := ToDriver | ToWorker (w s : nat).
Global Instance place_eqdec : EqDecision place.
Proof. solve_decision. Defined.

(** state.rs:91-115 [WorkerResource]; a slot is the [IndexSet] of its tasks. *)
Inductive worker := Active (slots : list (list key)) (streams : list key) | Inactive.

(** task_assigner/mod.rs:14-35 [TaskAssigner] with state.rs:7-20 [DriverResource]
    inlined.  The [workers] index map is an association list in insertion
    order, the assignment table is a function. *)
Record assigner := Assigner {
  a_driver : list (list key);            (* driver.task_slots *)
  a_local : list key;                    (* driver.local_streams *)
  a_storage : list key;                  (* driver.storage_streams *)
  a_external : list (nat * nat);         (* driver.external_streams *)
  a_workers : list (nat * worker);
  a_requested : nat;                     (* requested_worker_count *)
  a_table : key -> option place;         (* task_assignments *)
  a_queue : list region;                 (* task_queue *)
}.
(** task_assigner/mod.rs:38-47 [TaskAssigner::new] *)
Definition a_new : assigner := Assigner [] [] [] [] [] 0 (fun _ => None) [].

(** options.rs [TaskAssignerOptions] *)
Record a_options := AOptions { o_task_slots : nat; o_max_count : nat }.

(** [IndexSet::insert] *)
Definition ix_insert {A} `{EqDecision A} (l : list A) (k : A) : list A :=
  if bool_decide (k ∈ l) then l else l ++ [k].
(** [IndexSet::extend], and the loop of state.rs:197-201 [TaskSlot::add_tasks] *)
Definition ix_extend {A} `{EqDecision A} (l ks : list A) : list A := foldl ix_insert l ks.
(** [IndexSet::swap_remove] (state.rs:203-205): the last element takes the place
    of the removed one. *)
Definition ix_swap_remove {A} `{EqDecision A} (l : list A) (k : A) : list A :=
  match list_find (fun x => x = k) l, last l with
  | Some (i, _), Some x => take (length l - 1) (<[i := x]> l)
  | _, _ => l
  end.

(** [IndexMap::get] and [IndexMap::get_mut] on the worker table *)
Fixpoint w_get (w : nat) (l : list (nat * worker)) : option worker :=
  match l with
  | [] => None
  | (i, x) :: r => if bool_decide (i = w) then Some x else w_get w r
  end.
Fixpoint w_alter (f : worker -> worker) (w : nat) (l : list (nat * worker)) : list (nat * worker) :=
  match l with
  | [] => []
  | (i, x) :: r => if bool_decide (i = w) then (i, f x) :: r else (i, x) :: w_alter f w r
  end.

Definition vacant (s : list key) : bool := bool_decide (s = []). (* state.rs:193-195 *)
(** core.rs:34-36: the vacant slots of an active worker *)
Definition vacant_slots (x : worker) : nat :=
  match x with Active sl _ => length (filter (fun s => s = []) sl) | Inactive => 0 end.
Definition is_active (x : worker) : bool := match x with Active _ _ => true | Inactive => false end.
Definition active_count (l : list (nat * worker)) : nat :=
  length (filter (fun ix => is_active ix.2 = true) l).
(** core.rs:20-27: the number of task sets of a region that need a worker slot *)
Definition region_demand (r : region) : nat := length (filter (fun ps => ps.1 = OnWorker) r).

(** core.rs:15-56 [request_workers].  [usize::MAX] is replaced by no bound and
    [div_ceil] by its value on a positive divisor; the number of task slots per
    worker is positive in every accepted configuration. *)
Definition div_ceil (a b : nat) : nat := (a + (b - 1)) / b.
Definition request_workers (o : a_options) (a : assigner) : assigner * nat :=
  let enqueued := sum_list_with region_demand (a_queue a) in
  let free := sum_list_with (fun ix => vacant_slots ix.2) (a_workers a) in
  let required := div_ceil (enqueued - free) (o_task_slots o) in
  let n :=
    if bool_decide (o_max_count o = 0) then required
    else required `min` (o_max_count o - a_requested a - active_count (a_workers a)) in
  (Assigner (a_driver a) (a_local a) (a_storage a) (a_external a) (a_workers a)
     (a_requested a + n) (a_table a) (a_queue a), n).

(** core.rs:58-60 [track_worker_failed_to_start] *)
Definition failed_to_start (a : assigner) : assigner :=
  Assigner (a_driver a) (a_local a) (a_storage a) (a_external a) (a_workers a)
    (a_requested a - 1) (a_table a) (a_queue a).

Definition with_workers (a : assigner) (ws : list (nat * worker)) : assigner :=
  Assigner (a_driver a) (a_local a) (a_storage a) (a_external a) ws
    (a_requested a) (a_table a) (a_queue a).
Definition with_queue (a : assigner) (q : list region) : assigner :=
  Assigner (a_driver a) (a_local a) (a_storage a) (a_external a) (a_workers a)
    (a_requested a) (a_table a) q.

(** core.rs:62-75 [activate_worker] *)
Definition activate_worker (o : a_options) (w : nat) (a : assigner) : assigner :=
  let a1 := failed_to_start a in
  match w_get w (a_workers a1) with
  | Some _ => a1
  | None => with_workers a1 (a_workers a1 ++ [(w, Active (replicate (o_task_slots o) []) [])])
  end.

(** core.rs:77-90 [deactivate_worker] *)
Definition deactivate_worker (w : nat) (a : assigner) : assigner :=
  with_workers a (w_alter (fun _ => Inactive) w (a_workers a)).

(** core.rs:92-94 [enqueue_tasks]; core.rs:96-98 [exclude_task] *)
Definition enqueue_tasks (r : region) (a : assigner) : assigner := with_queue a (a_queue a ++ [r]).
Definition exclude_task (k : key) (a : assigner) : assigner :=
  with_queue a (filter (fun r => region_contains k r = false) (a_queue a)).

(** core.rs:255-278 [build_worker_task_slot_assigner]: the vacant slot numbers of
    each worker that has one *)
Definition vacant_numbers (x : worker) : list nat :=
  match x with
  | Active sl _ => map fst (filter (fun p => p.2 = []) (imap pair sl))
  | Inactive => []
  end.
Definition free_slots (l : list (nat * worker)) : list (nat * list nat) :=
  filter (fun p => p.2 <> []) (map (fun ix => (ix.1, vacant_numbers ix.2)) l).

(** core.rs:298-302 [TaskSlotAssigner::next]: the last free slot of the first
    worker that still has one *)
Fixpoint next_slot (free : list (nat * list nat)) : option ((nat * nat) * list (nat * list nat)) :=
  match free with
  | [] => None
  | (w, sl) :: r =>
      match last sl with
      | Some s => Some ((w, s), (w, take (length sl - 1) sl) :: r)
      | None => match next_slot r with
                | Some (p, r') => Some (p, (w, sl) :: r')
                | None => None
                end
      end
  end.

(** core.rs:304-334 [try_assign_task_region]; on failure the consumed slots do
    not matter because the caller stops *)
Fixpoint try_region (free : list (nat * list nat)) (r : region) :
    option (list (task_set * place) * list (nat * list nat)) :=
  match r with
  | [] => Some ([], free)
  | (OnDriver, s) :: r' =>
      match try_region free r' with
      | Some (out, f) => Some ((s, ToDriver) :: out, f)
      | None => None
      end
  | (OnWorker, s) :: r' =>
      match next_slot free with
      | None => None
      | Some ((w, n), free') =>
          match try_region free' r' with
          | Some (out, f) => Some ((s, ToWorker w n) :: out, f)
          | None => None
          end
      end
  end.

(** core.rs:104-121: the loop over the queue; the first region that does not fit
    goes back to the front and ends the loop *)
Fixpoint assign_loop (free : list (nat * list nat)) (q : list region) :
    list (task_set * place) * list region :=
  match q with
  | [] => ([], [])
  | r :: q' =>
      match try_region free r with
      | None => ([], r :: q')
      | Some (out, free') => let '(outs, rest) := assign_loop free' q' in (out ++ outs, rest)
      end
  end.

(** state.rs:24-34 [DriverResource::add_task_set] *)
Fixpoint driver_add (slots : list (list key)) (ks : list key) : list (list key) :=
  match slots with
  | [] => [ix_extend [] ks]
  | s :: r => if vacant s then ix_extend [] ks :: r else s :: driver_add r ks
  end.

(** state.rs:118-132 [WorkerResource::add_task_set] *)
Definition worker_add (n : nat) (ks : list key) (x : worker) : worker :=
  match x with
  | Active sl st => Active (alter (fun s => ix_extend s ks) n sl) st
  | Inactive => Inactive
  end.

(** the table update of core.rs:128-130 and 135-138 *)
Definition set_table (t : key -> option place) (ks : list key) (p : place) : key -> option place :=
  fun k => if bool_decide (k ∈ ks) then Some p else t k.

(** core.rs:124-144: one assignment is recorded *)
Definition record_assignment (a : assigner) (x : task_set * place) : assigner :=
  let ks := set_tasks x.1 in
  match x.2 with
  | ToDriver =>
      Assigner (driver_add (a_driver a) ks) (a_local a) (a_storage a) (a_external a) (a_workers a)
        (a_requested a) (set_table (a_table a) ks ToDriver) (a_queue a)
  | ToWorker w n =>
      match w_get w (a_workers a) with
      | None => a
      | Some _ =>
          Assigner (a_driver a) (a_local a) (a_storage a) (a_external a)
            (w_alter (worker_add n ks) w (a_workers a))
            (a_requested a) (set_table (a_table a) ks (ToWorker w n)) (a_queue a)
      end
  end.

(** core.rs:100-147 [assign_tasks] *)
Definition assign_tasks (a : assigner) : assigner * list (task_set * place) :=
  let '(outs, rest) := assign_loop (free_slots (a_workers a)) (a_queue a) in
  (foldl record_assignment (with_queue a rest) outs, outs).

(** state.rs:36-43 [DriverResource::remove_task]: the first slot that has it *)
Fixpoint driver_remove (slots : list (list key)) (k : key) : list (list key) :=
  match slots with
  | [] => []
  | s :: r => if bool_decide (k ∈ s) then ix_swap_remove s k :: r else s :: driver_remove r k
  end.
(** state.rs:134-149 [WorkerResource::remove_task] *)
Definition worker_remove (n : nat) (k : key) (x : worker) : worker :=
  match x with
  | Active sl st => Active (alter (fun s => ix_swap_remove s k) n sl) st
  | Inactive => Inactive
  end.

(** core.rs:149-164 [unassign_task]; the table keeps the entry *)
Definition unassign_task (k : key) (a : assigner) : assigner :=
  match a_table a k with
  | None => a
  | Some ToDriver =>
      Assigner (driver_remove (a_driver a) k) (a_local a) (a_storage a) (a_external a) (a_workers a)
        (a_requested a) (a_table a) (a_queue a)
  | Some (ToWorker w n) => with_workers a (w_alter (worker_remove n k) w (a_workers a))
  end.

(** state.rs:151-160 [WorkerResource::track_local_streams] *)
Definition worker_track (ks : list key) (x : worker) : worker :=
  match x with Active sl st => Active sl (ix_extend st ks) | Inactive => Inactive end.

(** core.rs:167-185 [track_streams], one assignment *)
Definition track_one (a : assigner) (x : task_set * place) : assigner :=
  let storage := ix_extend (a_storage a) (set_streams OStorage x.1) in
  let external := ix_extend (a_external a)
    (map (fun k => (k_job k, k_stage k)) (set_streams OExternal x.1)) in
  let local := set_streams OLocal x.1 in
  match x.2 with
  | ToDriver =>
      Assigner (a_driver a) (ix_extend (a_local a) local) storage external (a_workers a)
        (a_requested a) (a_table a) (a_queue a)
  | ToWorker w _ =>
      Assigner (a_driver a) (a_local a) storage external
        (w_alter (worker_track local) w (a_workers a))
        (a_requested a) (a_table a) (a_queue a)
  end.
Definition track_streams (a : assigner) (xs : list (task_set * place)) : assigner :=
  foldl track_one a xs.

(** handler.rs:508-510: the assigner's part of [run_tasks] *)
Definition run_tasks (a : assigner) : assigner * list (task_set * place) :=
  let '(a1, outs) := assign_tasks a in (track_streams a1 outs, outs).

(** state.rs:58-66 and 162-178: the streams kept when a job, or one stage of it,
    is cleaned up *)
Definition keeps (job : nat) (stage : option nat) (k : key) : bool :=
  match stage with
  | Some s => negb (bool_decide (k_job k = job)) || negb (bool_decide (k_stage k = s))
  | None => negb (bool_decide (k_job k = job))
  end.
Definition retain (job : nat) (stage : option nat) (l : list key) : list key :=
  filter (fun k => keeps job stage k = true) l.
(** state.rs:80-87: the externally managed stages kept *)
Definition keeps_stage (job : nat) (stage : option nat) (js : nat * nat) : bool :=
  negb (bool_decide (js.1 = job)) ||
  match stage with Some s => negb (bool_decide (s = js.2)) | None => false end.
Definition worker_untrack (job : nat) (stage : option nat) (x : worker) : worker :=
  match x with Active sl st => Active sl (retain job stage st) | Inactive => Inactive end.

(** core.rs:187-214: [untrack_local_streams], [untrack_storage_streams] and
    [untrack_external_streams], called together by handler.rs [clean_up_job]
    actions; the answers are not modelled here *)
Definition untrack_streams (job : nat) (stage : option nat) (a : assigner) : assigner :=
  Assigner (a_driver a) (retain job stage (a_local a)) (retain job stage (a_storage a))
    (filter (fun js => keeps_stage job stage js = true) (a_external a))
    (map (fun ix => (ix.1, worker_untrack job stage ix.2)) (a_workers a))
    (a_requested a) (a_table a) (a_queue a).

(** core.rs:226-239 [is_worker_idle] *)
Definition is_worker_idle (w : nat) (a : assigner) : bool :=
  match w_get w (a_workers a) with
  | Some (Active sl st) => forallb vacant sl && bool_decide (st = [])
  | _ => false
  end.
(** core.rs:241-253 [find_worker_tasks] *)
Definition find_worker_tasks (w : nat) (a : assigner) : list key :=
  match w_get w (a_workers a) with
  | Some (Active sl _) => concat sl
  | _ => []
  end.

(** The operations the driver performs on its assigner. *)
Inductive a_op :=
| ARequest                       (* request_workers *)
| AFailedToStart
| AActivate (w : nat)
| ADeactivate (w : nat)
| AEnqueue (r : region)
| AExclude (k : key)
| ARun                           (* assign_tasks, track_streams *)
| AUnassign (k : key)
| AUntrack (job : nat) (stage : option nat).

Definition a_step (o : a_options) (a : assigner) (op : a_op) : assigner * list (task_set * place) :=
  match op with
  | ARequest => ((request_workers o a).1, [])
  | AFailedToStart => (failed_to_start a, [])
  | AActivate w => (activate_worker o w a, [])
  | ADeactivate w => (deactivate_worker w a, [])
  | AEnqueue r => (enqueue_tasks r a, [])
  | AExclude k => (exclude_task k a, [])
  | ARun => run_tasks a
  | AUnassign k => (unassign_task k a, [])
  | AUntrack j s => (untrack_streams j s a, [])
  end.

Definition a_run (o : a_options) (ops : list a_op) : assigner :=
  foldl (fun a op => (a_step o a op).1) a_new ops.

(** The worker pool: worker_pool/state.rs [WorkerState] *)
Inductive w_state := WPending | WRunning | WCompleted | WFailed.
Global Instance w_state_eqdec : EqDecision w_state.
Proof. solve_decision. Defined.

(** The driver: its pool (worker ids are handed out in order, C15) and assigner.
    worker_pool/mod.rs, actor/mod.rs *)
Record driver := Driver { d_next : nat; d_pool : list (nat * w_state); d_assigner : assigner }.

Fixpoint p_get (w : nat) (l : list (nat * w_state)) : option w_state :=
  match l with
  | [] => None
  | (i, x) :: r => if bool_decide (i = w) then Some x else p_get w r
  end.
Fixpoint p_set (w : nat) (x : w_state) (l : list (nat * w_state)) : list (nat * w_state) :=
  match l with
  | [] => []
  | (i, y) :: r => if bool_decide (i = w) then (i, x) :: r else (i, y) :: p_set w x r
  end.

(** worker_pool/core.rs:41-101 [start_worker], up to launching the process *)
Definition start_worker (d : driver) : driver :=
  Driver (S (d_next d)) (d_pool d ++ [(d_next d, WPending)]) (d_assigner d).
Definition with_assigner (d : driver) (a : assigner) : driver := Driver (d_next d) (d_pool d) a.
Definition with_pool (d : driver) (p : list (nat * w_state)) : driver :=
  Driver (d_next d) p (d_assigner d).

(** handler.rs:41-47 [handle_activate] *)
Definition driver_start (initial : nat) : driver :=
  Nat.iter initial start_worker (Driver 1 [] a_new).

(** handler.rs:564-568 [scale_up_workers] *)
Definition scale_up (o : a_options) (d : driver) : driver :=
  let '(a, n) := request_workers o (d_assigner d) in
  Nat.iter n start_worker (with_assigner d a).

(** handler.rs:49-67 with worker_pool/core.rs:103-148: only a pending worker is
    registered *)
Definition register_worker (o : a_options) (w : nat) (d : driver) : driver :=
  match p_get w (d_pool d) with
  | Some WPending =>
      let d1 := with_pool d (p_set w WRunning (d_pool d)) in
      with_assigner d1 (run_tasks (activate_worker o w (d_assigner d1))).1
  | _ => d
  end.

(** handler.rs:89-99 with worker_pool/core.rs:272-296 *)
Definition probe_pending (o : a_options) (w : nat) (d : driver) : driver :=
  match p_get w (d_pool d) with
  | Some WPending =>
      let d1 := with_pool d (p_set w WFailed (d_pool d)) in
      scale_up o (with_assigner d1 (failed_to_start (d_assigner d1)))
  | _ => d
  end.

(** worker_pool/core.rs:150-212 [stop_worker]; [Completed] also stands for the
    case in which no client can be made *)
Definition stop_worker (w : nat) (d : driver) : driver :=
  match p_get w (d_pool d) with
  | Some (WPending | WRunning) => with_pool d (p_set w WCompleted (d_pool d))
  | _ => d
  end.

(** handler.rs:101-121 [handle_probe_idle_worker]; [expired] is the comparison of
    clock readings *)
Definition probe_idle (w : nat) (expired : bool) (d : driver) : driver :=
  if is_worker_idle w (d_assigner d)
     && (bool_decide (p_get w (d_pool d) = Some WRunning) && expired)
  then let d1 := stop_worker w d in with_assigner d1 (deactivate_worker w (d_assigner d1))
  else d.

(** handler.rs:123-160 [handle_probe_lost_worker]: the tasks to be failed are
    returned; failing them and what follows are separate operations here *)
Definition probe_lost (w : nat) (expired : bool) (d : driver) : driver * list key :=
  if bool_decide (p_get w (d_pool d) = Some WRunning) && expired
  then let d1 := stop_worker w d in
       (with_assigner d1 (deactivate_worker w (d_assigner d1)), find_worker_tasks w (d_assigner d1))
  else (d, []).

(** What happens to a driver, at the granularity of the calls its handlers make.
    The handlers make these calls in fixed groups; histories here may interleave
    them in any order, so every history of the code is one of these. *)
Inductive d_op :=
| DRegister (w : nat)
| DProbePending (w : nat)
| DProbeIdle (w : nat) (expired : bool)
| DProbeLost (w : nat) (expired : bool)
| DEnqueue (r : region)
| DExclude (k : key)
| DRun
| DScaleUp
| DUnassign (k : key)
| DUntrack (job : nat) (stage : option nat).

Definition d_step (o : a_options) (d : driver) (op : d_op) : driver :=
  match op with
  | DRegister w => register_worker o w d
  | DProbePending w => probe_pending o w d
  | DProbeIdle w e => probe_idle w e d
  | DProbeLost w e => (probe_lost w e d).1
  | DEnqueue r => with_assigner d (enqueue_tasks r (d_assigner d))
  | DExclude k => with_assigner d (exclude_task k (d_assigner d))
  | DRun => with_assigner d (run_tasks (d_assigner d)).1
  | DScaleUp => scale_up o d
  | DUnassign k => with_assigner d (unassign_task k (d_assigner d))
  | DUntrack j s => with_assigner d (untrack_streams j s (d_assigner d))
  end.
Definition d_run (o : a_options) (initial : nat) (ops : list d_op) : driver :=
  foldl (d_step o) (driver_start initial) ops.
