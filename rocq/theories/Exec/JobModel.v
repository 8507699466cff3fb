(** Model of the driver's job scheduler for one job.
    Source: crates/sail-execution/src/driver/job_scheduler/{core.rs,state.rs}.

    The scheduler keeps one [JobDescriptor] per job id and every method looks up
    one job id first (core.rs:113, 170, 581), so the state of one job is modelled
    here and the map of jobs in [SchedulerModel.v].  Telemetry events, messages
    and the serialised plan are dropped. *)
From stdpp Require Import prelude list.
From Verif.Exec Require Import TaskStateModel GraphModel.

(** state.rs:119-128, [TaskAttemptDescriptor]; error causes are numbers, the
    message list is dropped. *)
Record attempt := Attempt {
  at_state : task_state;
  at_cause : option nat;
  at_fetched : bool; (* job_output_fetched *)
}.

(** state.rs:114-117 [TaskDescriptor] is the list of attempts; state.rs:77-91 [StageDescriptor]. *)
Record stage_desc := StageDesc { sd_tasks : list (list attempt); sd_active : bool }.

(** state.rs:107-112 *)
Inductive region_state := RgRunning | RgFailed | RgSucceeded.
Global Instance region_state_eqdec : EqDecision region_state.
Proof. solve_decision. Defined.

(** state.rs:22-28; the output manager inside [Running] is not modelled here. *)
Inductive job_state := JRunning | JDraining | JSucceeded | JFailed | JCanceled.
Global Instance job_state_eqdec : EqDecision job_state.
Proof. solve_decision. Defined.

(** state.rs:13-20 *)
Record job := Job {
  jb_graph : graph;
  jb_topo : topology;
  jb_stages : list stage_desc;
  jb_regions : list region_state;
  jb_state : job_state;
}.

Definition with_stages (j : job) (ss : list stage_desc) : job :=
  Job (jb_graph j) (jb_topo j) ss (jb_regions j) (jb_state j).
Definition with_regions (j : job) (rs : list region_state) : job :=
  Job (jb_graph j) (jb_topo j) (jb_stages j) rs (jb_state j).
Definition with_state (j : job) (st : job_state) : job :=
  Job (jb_graph j) (jb_topo j) (jb_stages j) (jb_regions j) st.

(** id.rs: [TaskKey] without the job id. *)
Record task_key := TaskKey { tk_stage : nat; tk_partition : nat; tk_attempt : nat }.
Global Instance task_key_eqdec : EqDecision task_key.
Proof. solve_decision. Defined.
(** id.rs: [TaskStreamKey] without the job id. *)
Record stream_key := StreamKey { sk_task : task_key; sk_channel : nat }.

(** task/scheduling.rs:34-47: a task and where its output is kept.  [Blocking]
    stands for the storage or the external shuffle service, whichever is
    configured; [Pipelined] for a local stream (core.rs:462-469). *)
Definition entry := (task_key * output_mode)%type.
Definition task_region := list (placement * list entry).

(** job_scheduler/mod.rs [JobAction]. *)
Inductive action :=
| ScheduleTaskRegion (r : task_region)
| CancelTask (k : task_key)
| ExtendJobOutput (k : stream_key)
| FailJobOutput (cause : option nat)
| CleanUpJob (stage : option nat).

(** state.rs:43-73, [JobDescriptor::try_new]. *)
Definition new_job (g : graph) : option job :=
  match build_topology g with
  | Some tp =>
      Some (Job g tp
        (map (fun st => StageDesc (replicate (st_partitions st) []) true) g)
        (replicate (length (tp_regions tp)) RgRunning)
        JRunning)
  | None => None
  end.

(** [job.stages[s].tasks[p].attempts] *)
Definition attempts (j : job) (t : nat * nat) : list attempt :=
  match jb_stages j !! t.1 with
  | Some sd => default [] (sd_tasks sd !! t.2)
  | None => []
  end.
Definition alter_task (f : list attempt -> list attempt) (j : job) (t : nat * nat) : job :=
  with_stages j
    (alter (fun sd => StageDesc (alter f t.2 (sd_tasks sd)) (sd_active sd)) t.1 (jb_stages j)).

Definition last_state (j : job) (t : nat * nat) : option task_state :=
  at_state <$> last (attempts j t).

(** core.rs:723-732, [get_latest_task_attempt]. *)
Definition latest_attempt (j : job) (t : nat * nat) : option nat :=
  match attempts j t with [] => None | a => Some (length a - 1) end.

(** core.rs:103-136, [update_task]; an unknown key is ignored. *)
Definition report_attempt (st : task_state) (cause : option nat) (a : attempt) : attempt :=
  Attempt (consolidate (at_state a) st)
          (match cause with Some c => Some c | None => at_cause a end)
          (at_fetched a).
Definition update_task (j : job) (k : task_key) (st : task_state) (cause : option nat) : job :=
  alter_task (alter (report_attempt st cause) (tk_attempt k)) j (tk_stage k, tk_partition k).

(** The shape shared by the two loops over regions (core.rs:283-323 and
    core.rs:381-428): if [cond] holds of the region, all its tasks are changed by
    [f] and actions are emitted, computed from the job before ([act_b]) and after
    ([act_a]) the change. *)
Definition region_loop_step
  (cond : job -> nat -> region_topo -> bool)
  (f : list attempt -> list attempt)
  (act_b act_a : job -> region_topo -> list action)
  (acc : job * list action) (rr : nat * region_topo) : job * list action :=
  let '(j, acts) := acc in
  let '(r, rt) := rr in
  if cond j r rt then
    let j' := foldl (alter_task f) j (rt_tasks rt) in
    (j', acts ++ act_b j rt ++ act_a j' rt)
  else (j, acts).
Definition region_loop cond f act_b act_a (j : job) : job * list action :=
  foldl (region_loop_step cond f act_b act_a) (j, []) (imap pair (tp_regions (jb_topo j))).

(** core.rs:284-293: some task of the region has a failed latest attempt. *)
Definition region_has_failure (j : job) (_ : nat) (rt : region_topo) : bool :=
  existsb (fun t => bool_decide (last_state j t = Some TFailed)) (rt_tasks rt).
(** core.rs:299-301 *)
Definition cancel_attempt (a : attempt) : attempt :=
  if is_terminal (at_state a) then a else Attempt TCanceled (at_cause a) (at_fetched a).
(** core.rs:297-319, the cancel actions of one region. *)
Definition cancel_actions (j : job) (ts : list (nat * nat)) : list action :=
  flat_map (fun t =>
    flat_map (fun ia : nat * attempt =>
      if is_terminal (at_state ia.2) then [] else [CancelTask (TaskKey t.1 t.2 ia.1)])
      (imap pair (attempts j t))) ts.
(** core.rs:275-326, [cascade_cancel_task_attempts]. *)
Definition cascade_cancel (j : job) : job * list action :=
  region_loop region_has_failure (map cancel_attempt)
    (fun j rt => cancel_actions j (rt_tasks rt)) (fun _ _ => []) j.

(** core.rs:501-542, [extend_job_output]: one task of a final stage. *)
Definition set_last_fetched (l : list attempt) : list attempt :=
  alter (fun a => Attempt (at_state a) (at_cause a) true) (length l - 1) l.
Definition extend_one (acc : job * list action) (tc : (nat * nat) * nat) : job * list action :=
  let '(j, acts) := acc in
  let '(t, channels) := tc in
  match last (attempts j t) with
  | None => acc
  | Some a =>
      if (bool_decide (at_state a = TRunning) || bool_decide (at_state a = TSucceeded))
         && negb (at_fetched a)
      then (alter_task set_last_fetched j t,
            acts ++ map (fun c => ExtendJobOutput
              (StreamKey (TaskKey t.1 t.2 (length (attempts j t) - 1)) c)) (seq 0 channels))
      else acc
  end.
Definition final_tasks (g : graph) : list ((nat * nat) * nat) :=
  flat_map (fun s =>
    match g !! s, consumers g s with
    | Some st, [] => map (fun p => ((s, p), st_channels st)) (seq 0 (st_partitions st))
    | _, _ => []
    end) (seq 0 (length g)).
Definition extend_job_output (j : job) : job * list action :=
  match jb_state j with
  | JRunning => foldl extend_one (j, []) (final_tasks (jb_graph j))
  | _ => (j, [])
  end.

(** core.rs:328-371, [clean_up_job_by_stage]. *)
Definition stage_succeeded (j : job) (c : nat) : bool :=
  forallb (fun p => bool_decide (last_state j (c, p) = Some TSucceeded))
    (seq 0 (partitions_of (jb_graph j) c)).
Definition deactivate_stage (j : job) (s : nat) : job :=
  with_stages j (alter (fun sd => StageDesc (sd_tasks sd) false) s (jb_stages j)).
Definition stage_active (j : job) (s : nat) : bool :=
  match jb_stages j !! s with Some sd => sd_active sd | None => false end.
Definition clean_up_stage (acc : job * list action) (s : nat) : job * list action :=
  let '(j, acts) := acc in
  let cs := consumers (jb_graph j) s in
  if stage_active j s && forallb (stage_succeeded j) cs && negb (bool_decide (cs = []))
  then (deactivate_stage j s, acts ++ [CleanUpJob (Some s)])
  else acc.
Definition clean_up_by_stage (j : job) : job * list action :=
  foldl clean_up_stage (j, []) (seq 0 (length (jb_graph j))).

(** core.rs:245-273, [update_task_regions]. *)
Definition task_exhausted (max : nat) (j : job) (t : nat * nat) : bool :=
  (bool_decide (last_state j t = Some TFailed) || bool_decide (last_state j t = Some TCanceled))
  && (max <=? length (attempts j t)).
Definition region_status (max : nat) (j : job) (rt : region_topo) : region_state :=
  if existsb (task_exhausted max j) (rt_tasks rt) then RgFailed
  else if forallb (fun t => bool_decide (last_state j t = Some TSucceeded)) (rt_tasks rt)
  then RgSucceeded else RgRunning.
Definition update_task_regions (max : nat) (j : job) : job :=
  with_regions j (map (region_status max j) (tp_regions (jb_topo j))).

(** core.rs:433-499, [build_task_region].  The [IndexMap] of stage groups is
    unfolded: group keys in first-seen order, the number of buckets of a group,
    and the entries of each bucket in the order of the region's tasks. *)
Definition dedup {A} `{EqDecision A} (l : list A) : list A :=
  foldl (fun acc x => if decide (x ∈ acc) then acc else acc ++ [x]) [] l.
Definition stage_key (g : graph) (s : nat) : placement * nat :=
  match g !! s with Some st => (st_placement st, st_group st) | None => (OnWorker, 0) end.
Definition stage_mode (g : graph) (s : nat) : output_mode :=
  match g !! s with Some st => st_mode st | None => Pipelined end.
Definition bucket_count (g : graph) (ts : list (nat * nat)) (k : placement * nat) : nat :=
  max_list_with (partitions_of g) (filter (fun s => stage_key g s = k) (dedup (map fst ts))).
Definition bucket_of (g : graph) (n : nat) (t : nat * nat) : nat :=
  t.2 * n / partitions_of g t.1.
Definition bucket_entries (j : job) (ts : list (nat * nat)) (k : placement * nat) (n b : nat)
  : list entry :=
  omap (fun t =>
    if decide (stage_key (jb_graph j) t.1 = k /\ bucket_of (jb_graph j) n t = b)
    then (fun a => (TaskKey t.1 t.2 a, stage_mode (jb_graph j) t.1)) <$> latest_attempt j t
    else None) ts.
Definition build_task_region (j : job) (ts : list (nat * nat)) : task_region :=
  flat_map (fun k =>
    let n := bucket_count (jb_graph j) ts k in
    map (fun b => (k.1, bucket_entries j ts k n b)) (seq 0 n))
    (dedup (map (stage_key (jb_graph j)) (dedup (map fst ts)))).

(** core.rs:373-431, [schedule_task_regions]: is region [r] to be scheduled now? *)
Definition region_ready (j : job) (r : nat) (rt : region_topo) : bool :=
  negb (bool_decide (jb_regions j !! r = Some RgSucceeded))
  && forallb (fun d => bool_decide (jb_regions j !! d = Some RgSucceeded)) (rt_deps rt)
  && negb (existsb (fun t =>
       match last_state j t with Some s => negb (is_terminal s) | None => false end)
       (rt_tasks rt)).
Definition push_created (l : list attempt) : list attempt := l ++ [Attempt TCreated None false].
Definition schedule_task_regions (j : job) : job * list action :=
  region_loop region_ready push_created (fun _ _ => [])
    (fun j rt => [ScheduleTaskRegion (build_task_region j (rt_tasks rt))]) j.

(** core.rs:544-573, [infer_job_failure_cause]: among the tasks with recorded
    failure causes the one with the most of them, the first in (stage, partition)
    order on a tie; its most recent cause. *)
Definition failure_causes (l : list attempt) : list nat :=
  omap (fun a => if decide (at_state a = TFailed) then at_cause a else None) l.
Definition all_tasks (j : job) : list (nat * nat) :=
  flat_map (fun '(s, sd) => map (fun p => (s, p)) (seq 0 (length (sd_tasks sd))))
    (imap pair (jb_stages j)).
Definition more_failures (best : list nat) (l : list nat) : list nat :=
  if decide (length best < length l) then l else best.
Definition infer_cause (j : job) : option nat :=
  last (foldl more_failures [] (map (fun t => failure_causes (attempts j t)) (all_tasks j))).

(** core.rs:167-243, [refresh_job]. *)
Definition refresh_job (max : nat) (j : job) : job * list action :=
  match jb_state j with
  | JRunning =>
      let '(j, a1) := cascade_cancel j in
      let '(j, a2) := extend_job_output j in
      let '(j, a3) := clean_up_by_stage j in
      let j := update_task_regions max j in
      if existsb (fun r => bool_decide (r = RgFailed)) (jb_regions j) then
        (with_state j JFailed, a1 ++ a2 ++ a3 ++ [FailJobOutput (infer_cause j)])
      else if forallb (fun r => bool_decide (r = RgSucceeded)) (jb_regions j) then
        (with_state j JDraining, a1 ++ a2 ++ a3)
      else
        let '(j, a4) := schedule_task_regions j in
        (j, a1 ++ a2 ++ a3 ++ a4)
  | _ => (j, [])
  end.

(** core.rs:578-634, [clean_up_job]. *)
Definition clean_up_job (j : job) : job * list action :=
  (Job (jb_graph j) (jb_topo j)
     (map (fun sd => StageDesc (sd_tasks sd) false) (jb_stages j)) (jb_regions j)
     (match jb_state j with JDraining => JSucceeded | _ => JCanceled end),
   cancel_actions j (all_tasks j) ++ [CleanUpJob None]).

(** core.rs:670-721, [stop], for one job. *)
Definition stop_job (j : job) : job :=
  Job (jb_graph j) (jb_topo j)
    (map (fun sd => StageDesc (map (map cancel_attempt) (sd_tasks sd)) false) (jb_stages j))
    (jb_regions j)
    (match jb_state j with JRunning | JDraining => JCanceled | s => s end).

(** The calls the driver makes on one job (driver/actor/handler.rs). *)
Inductive job_op :=
| OpUpdate (k : task_key) (st : task_state) (cause : option nat)
| OpRefresh
| OpCleanUp
| OpStop.

Definition job_step (max : nat) (j : job) (op : job_op) : job * list action :=
  match op with
  | OpUpdate k st cause => (update_task j k st cause, [])
  | OpRefresh => refresh_job max j
  | OpCleanUp => clean_up_job j
  | OpStop => (stop_job j, [])
  end.

Definition run_job (max : nat) (j : job) (ops : list job_op) : job :=
  foldl (fun j op => (job_step max j op).1) j ops.

(** All actions emitted along a run, in order. *)
Fixpoint run_actions (max : nat) (j : job) (ops : list job_op) : list action :=
  match ops with
  | [] => []
  | op :: ops => (job_step max j op).2 ++ run_actions max (job_step max j op).1 ops
  end.
