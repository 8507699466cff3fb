(** Model of how a task's inputs are located and read across an exchange.
    Sources: crates/sail-execution/src/driver/job_scheduler/core.rs:735-957,
             crates/sail-execution/src/stream/accessor.rs:288-345,
             crates/sail-physical-plan/src/coalesce.rs:96-153,
             crates/sail-execution/src/driver/task_assigner (assignment lookup). *)
From stdpp Require Import prelude list.
From Verif.Exec Require Import GraphModel.

(** task/definition.rs, [TaskInputKey]. *)
Record input_key := InputKey { ik_partition : nat; ik_attempt : nat; ik_channel : nat }.
Global Instance input_key_eqdec : EqDecision input_key.
Proof. solve_decision. Defined.

(** core.rs:874-880 (also 906-912, 928-934): all channels of one producer
    partition; [att] is [latest_attempt], core.rs:945-957, whose failure aborts
    the whole construction. *)
Definition partition_keys (att : nat -> option nat) (ic p : nat) : option (list input_key) :=
  a ← att p;
  Some (map (fun c => InputKey p a c) (seq 0 ic)).

(** core.rs:889-896: the same channel of all producer partitions. *)
Definition channel_keys (att : nat -> option nat) (ip c : nat) : option (list input_key) :=
  mapM (fun p => (fun a => InputKey p a c) <$> att p) (seq 0 ip).

(** core.rs:918-921, also coalesce.rs:145-153 [coalesced_input_range]. *)
Definition rescale_range (o ip op : nat) : nat * nat :=
  (o * ip / op, (o + 1) * ip / op).
(** The integers [start..end]. *)
Definition range (se : nat * nat) : list nat := seq se.1 (se.2 - se.1).

(** core.rs:860-943, [build_task_input_keys]. [ip], [ic], [op] are the number of
    partitions and channels of the producer and of partitions of the consumer. *)
Definition input_groups (m : input_mode) (att : nat -> option nat) (ip ic op : nat) :
  option (list (list input_key)) :=
  match m with
  | Forward | Merge => mapM (partition_keys att ic) (seq 0 ip)
  | Shuffle => mapM (channel_keys att ip) (seq 0 ic)
  | Broadcast =>
      keys ← mapM (partition_keys att ic) (seq 0 ip);
      Some [concat keys]
  | Rescale =>
      mapM (fun o => (@concat _) <$> mapM (partition_keys att ic) (range (rescale_range o ip op)))
           (seq 0 op)
  end.

(** Which groups the task for partition [p] of the consumer opens
    (job_graph/mod.rs:146-163): the placeholder node of the input executes the
    same partition (Forward, Shuffle, Rescale), all partitions (Merge) or its
    single partition (Broadcast). *)
Definition opened_groups (m : input_mode) (ip p : nat) : list nat :=
  match m with
  | Forward | Shuffle | Rescale => [p]
  | Merge => seq 0 ip
  | Broadcast => [0]
  end.

(** accessor.rs:288-345, [MultiChannelTaskStreamReader::open]: a missing group is
    an error, otherwise one stream is fetched per key and the streams are merged. *)
Definition read_task (m : input_mode) (att : nat -> option nat) (ip ic op p : nat) :
  option (list input_key) :=
  groups ← input_groups m att ip ic op;
  (@concat _) <$> mapM (fun i => groups !! i) (opened_groups m ip p).

(** Where a task attempt runs: [None] not assigned, driver, or a worker
    (task_assigner/state.rs, [TaskAssignment]). *)
Inductive assignment := ADriver | AWorker (w : nat).
Global Instance assignment_eqdec : EqDecision assignment.
Proof. solve_decision. Defined.

(** core.rs:791-803, [build_driver_locator]. *)
Definition driver_locator (asg : nat -> nat -> option assignment) (groups : list (list input_key)) :
  option (list (list input_key)) :=
  if forallb (fun k => bool_decide (asg (ik_partition k) (ik_attempt k) = Some ADriver)) (concat groups)
  then Some groups else None.
(** core.rs:805-829, [build_worker_locator]. *)
Definition worker_locator (asg : nat -> nat -> option assignment) (groups : list (list input_key)) :
  option (list (list (nat * input_key))) :=
  mapM (mapM (fun k => match asg (ik_partition k) (ik_attempt k) with
                       | Some (AWorker w) => Some (w, k)
                       | _ => None
                       end)) groups.
(** core.rs:837-858, [build_shuffle_service_locator]: the channels each consumer
    partition reads; only Shuffle and Broadcast are supported. *)
Definition service_locator (m : input_mode) (ic op : nat) : option (list (list nat)) :=
  match m with
  | Shuffle => Some (map (fun p => [p]) (seq 0 op))
  | Broadcast => Some (replicate op (seq 0 ic))
  | _ => None
  end.

(** coalesce.rs:90-129, [CoalesceExec::execute]: the input partitions one output
    partition reads, in order; growing the number of partitions is refused. *)
Definition coalesce_inputs (ip op p : nat) : option (list nat) :=
  if decide (op <= p) then None
  else if decide (ip < op) then None
  else Some (range (rescale_range p ip op)).

(** How often the tasks of the whole graph open the stream of channel [c] of
    partition [p] of stage [i], when every task reads each of its inputs once;
    [att] gives the newest attempt of each task of stage [i]. *)
Definition opens (g : graph) (att : nat -> option nat) (i p c : nat) : nat :=
  match g !! i with
  | Some prod =>
      sum_list (flat_map (fun cons =>
        map (fun inp =>
          sum_list (map (fun q =>
            length (filter (fun k => ik_partition k = p /\ ik_channel k = c)
              (default [] (read_task (in_mode inp) att (st_partitions prod)
                             (st_channels prod) (st_partitions cons) q))))
            (seq 0 (st_partitions cons))))
          (filter (fun inp => in_stage inp = i) (st_inputs cons))) g)
  | None => 0
  end.
