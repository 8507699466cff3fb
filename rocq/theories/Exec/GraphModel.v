(** Model of job graphs and their task topology.
    Sources: crates/sail-execution/src/job_graph/mod.rs,
             crates/sail-execution/src/driver/job_scheduler/topology.rs *)
From stdpp Require Import prelude list.

(** job_graph/mod.rs:147-167, [enum InputMode]. *)
Inductive input_mode := Forward | Merge | Shuffle | Broadcast | Rescale.
Global Instance input_mode_eqdec : EqDecision input_mode.
Proof. solve_decision. Defined.

(** job_graph/mod.rs:182-185, [enum OutputMode]. *)
Inductive output_mode := Pipelined | Blocking.
Global Instance output_mode_eqdec : EqDecision output_mode.
Proof. solve_decision. Defined.

(** job_graph/mod.rs:113-116, [enum TaskPlacement]. *)
Inductive placement := OnDriver | OnWorker.
Global Instance placement_eqdec : EqDecision placement.
Proof. solve_decision. Defined.

(** job_graph/mod.rs:129-132, [struct StageInput]. *)
Record stage_input := StageInput { in_stage : nat; in_mode : input_mode }.

(** job_graph/mod.rs:100-109, [struct Stage].  The physical plan is represented
    by its number of output partitions, the distribution by its number of
    channels, the slot-sharing group name by a number. *)
Record stage := Stage {
  st_inputs : list stage_input;
  st_partitions : nat;
  st_channels : nat;
  st_group : nat;
  st_mode : output_mode;
  st_placement : placement;
}.

(** job_graph/mod.rs:25-34, [struct JobGraph]; schema and options are dropped
    (the schema check topology.rs:58-66 is not modelled). *)
Definition graph := list stage.

Definition partitions_of (g : graph) (s : nat) : nat :=
  match g !! s with Some st => st_partitions st | None => 0 end.
Definition inputs_of (g : graph) (s : nat) : list stage_input :=
  match g !! s with Some st => st_inputs st | None => [] end.
Definition is_pipelined (g : graph) (s : nat) : bool :=
  match g !! s with
  | Some st => match st_mode st with Pipelined => true | Blocking => false end
  | None => false
  end.

(** job_graph/mod.rs:51-69, [JobGraph::replicas]. *)
Definition replicas (g : graph) (i : nat) : nat :=
  Nat.max 1 (sum_list
    (flat_map (fun st =>
       map (fun inp => match in_mode inp with
                       | Forward | Shuffle | Rescale => 1
                       | Merge | Broadcast => st_partitions st
                       end)
         (filter (fun inp => in_stage inp = i) (st_inputs st))) g)).

(** All (consumer stage, input) pairs in the order of the loop at topology.rs:46-47. *)
Definition edges (g : graph) : list (nat * stage_input) :=
  flat_map (fun s => map (fun i => (s, i)) (inputs_of g s)) (seq 0 (length g)).

(** topology.rs:40-48, [stages[input.stage].consumers.push(s)]: the consumers of
    stage [i] in push order. *)
Definition consumers (g : graph) (i : nat) : list nat :=
  flat_map (fun e => if decide (in_stage e.2 = i) then [e.1] else []) (edges g).

(** topology.rs:44-53, [pipelined_adjacency]: the list kept for node [u], in push order. *)
Definition adjacency (g : graph) (u : nat) : list nat :=
  flat_map (fun e =>
    if is_pipelined g (in_stage e.2) then
      (if decide (e.1 = u) then [in_stage e.2] else []) ++
      (if decide (in_stage e.2 = u) then [e.1] else [])
    else []) (edges g).

(** topology.rs:79-84, the loop over the neighbours of a popped node. The
    [visited: Vec<bool>] of the code is the list of visited nodes here. *)
Definition bfs_push (acc : list nat * list nat) (v : nat) : list nat * list nat :=
  if decide (v ∈ acc.1) then acc else (v :: acc.1, acc.2 ++ [v]).

(** topology.rs:76-87, the [while let Some(u) = queue.pop_front()] loop. [fuel]
    bounds the number of pops; it is instantiated with the number of stages and
    never runs out (that is part of what the partition theorem establishes). *)
Fixpoint bfs (fuel : nat) (adj : nat -> list nat) (visited queue component : list nat)
  : list nat * list nat :=
  match fuel, queue with
  | S fuel, u :: queue =>
      let '(visited, queue) := foldl bfs_push (visited, queue) (adj u) in
      bfs fuel adj visited queue (component ++ [u])
  | _, _ => (visited, component)
  end.

(** topology.rs:68-90, "find pipelined components". *)
Definition component_step (g : graph) (acc : list nat * list (list nat)) (s : nat)
  : list nat * list (list nat) :=
  let '(visited, comps) := acc in
  if decide (s ∈ visited) then acc
  else
    let '(visited', comp) := bfs (length g) (adjacency g) (s :: visited) [s] [] in
    (visited', comps ++ [comp]).
Definition components (g : graph) : list (list nat) :=
  (foldl (component_step g) ([], []) (seq 0 (length g))).2.

(** topology.rs:95-108, are all inputs inside the component one-to-one? *)
Definition all_forward (g : graph) (comp : list nat) : bool :=
  forallb (fun u =>
    forallb (fun inp =>
      negb (bool_decide (in_stage inp ∈ comp)) || bool_decide (in_mode inp = Forward))
      (inputs_of g u)) comp.

(** topology.rs:16-23, [struct TaskRegionTopology]; [TaskTopology] is a pair
    (stage, partition). The [IndexSet] of dependencies is a list that may repeat
    an element (only membership is ever used). *)
Record region_topo := RegionTopo {
  rt_tasks : list (nat * nat);
  rt_deps : list nat;
}.

(** topology.rs:11-14, [struct JobTopology]; the consumers are recomputed from the graph. *)
Record topology := Topology { tp_regions : list region_topo }.

(** topology.rs:110-158, the tasks of the regions of one component; [None] is the
    "must have the same partition count" error. *)
Definition component_regions (g : graph) (comp : list nat) : option (list (list (nat * nat))) :=
  if all_forward g comp then
    match map (partitions_of g) comp with
    | [] => None
    | p :: ps =>
        if forallb (Nat.eqb p) ps then
          Some (map (fun q => map (fun s => (s, q)) comp) (seq 0 p))
        else None
    end
  else
    Some [flat_map (fun s => map (fun p => (s, p)) (seq 0 (partitions_of g s))) comp].

Fixpoint concat_options {A} (l : list (option (list A))) : option (list A) :=
  match l with
  | [] => Some []
  | None :: _ => None
  | Some x :: l => match concat_options l with Some y => Some (x ++ y) | None => None end
  end.

(** topology.rs:162-167, [task_to_region]: the index of the region holding a task. The
    code inserts every task into a map, so a later region would win; regions are
    disjoint, so the first match is the same. *)
Fixpoint find_region_from (r : nat) (regions : list (list (nat * nat))) (t : nat * nat) : option nat :=
  match regions with
  | [] => None
  | ts :: rest => if decide (t ∈ ts) then Some r else find_region_from (S r) rest t
  end.
Definition find_region := find_region_from 0.

(** topology.rs:171-196, producer tasks looked up for one input of a task. *)
Definition input_tasks (g : graph) (inp : stage_input) (p : nat) : list (nat * nat) :=
  match in_mode inp with
  | Forward => [(in_stage inp, p)]
  | _ => map (fun q => (in_stage inp, q)) (seq 0 (partitions_of g (in_stage inp)))
  end.

(** topology.rs:168-199, the dependencies of region [r]. *)
Definition region_deps (g : graph) (regions : list (list (nat * nat))) (r : nat)
  (tasks : list (nat * nat)) : list nat :=
  flat_map (fun t =>
    flat_map (fun inp =>
      flat_map (fun t' =>
        match find_region regions t' with
        | Some d => if decide (d = r) then [] else [d]
        | None => []
        end) (input_tasks g inp t.2))
      (inputs_of g t.1)) tasks.

(** topology.rs:40-203, [JobTopology::try_new]. [None] stands for the error of
    [component_regions]; indexing with an out-of-range input stage, which panics
    in the code, is [None] as well. *)
Definition build_topology (g : graph) : option topology :=
  if forallb (fun e => in_stage e.2 <? length g) (edges g) then
    match concat_options (map (component_regions g) (components g)) with
    | Some regions =>
        Some (Topology (imap (fun r ts => RegionTopo ts (region_deps g regions r ts)) regions))
    | None => None
    end
  else None.
