(** C07: every task belongs to exactly one scheduling region, pipelined stages
    share it, and blocking inputs are declared dependencies. *)
From stdpp Require Import prelude list relations.
From Verif.Exec Require Import GraphModel GraphSpec GraphProofs.

(** The regions partition the tasks of the job. *)
Theorem C07_regions_partition_tasks (g : graph) (tp : topology) :
  build_topology g = Some tp ->
  NoDup (concat (map rt_tasks (tp_regions tp))) /\
  (forall t, t ∈ concat (map rt_tasks (tp_regions tp)) <-> is_task g t).
Proof. exact (topology_partition g tp). Qed.
Print Assumptions C07_regions_partition_tasks.

(** A task and every task it reads from through a pipelined exchange are in one region. *)
Theorem C07_pipelined_inputs_share_region (g : graph) (tp : topology) rt t t' :
  build_topology g = Some tp -> rt ∈ tp_regions tp -> t ∈ rt_tasks rt ->
  reads g t t' -> pipelined g t'.1 -> t' ∈ rt_tasks rt.
Proof. exact (topology_pipelined g tp rt t t'). Qed.
Print Assumptions C07_pipelined_inputs_share_region.

(** A region spans several partitions only if some exchange inside its group of
    pipelined stages is not one-to-one. *)
Theorem C07_one_to_one_groups_are_sliced (g : graph) (tp : topology) rt t t' :
  build_topology g = Some tp -> rt ∈ tp_regions tp ->
  t ∈ rt_tasks rt -> t' ∈ rt_tasks rt -> t.2 <> t'.2 ->
  exists i m u, feeds g i m u /\ m <> Forward /\ rtc (linked g) t.1 i /\ rtc (linked g) t.1 u.
Proof. exact (topology_slice g tp rt t t'). Qed.
Print Assumptions C07_one_to_one_groups_are_sliced.

(** The declared dependencies of a region are exactly the other regions that hold a
    task read by one of its tasks. *)
Theorem C07_dependencies_exact (g : graph) (tp : topology) r rt d :
  build_topology g = Some tp -> tp_regions tp !! r = Some rt ->
  d ∈ rt_deps rt <->
  d <> r /\ exists rt' t t', tp_regions tp !! d = Some rt' /\ t ∈ rt_tasks rt /\ t' ∈ rt_tasks rt' /\ reads g t t'.
Proof. exact (topology_deps g tp r rt d). Qed.
Print Assumptions C07_dependencies_exact.

(** For the graphs the planner makes, regions never wait for each other in a cycle. *)
Theorem C07_dependencies_acyclic (g : graph) (tp : topology) r rt d rt' :
  build_topology g = Some tp -> topological g -> planner_shaped g ->
  tp_regions tp !! r = Some rt -> tp_regions tp !! d = Some rt' -> d ∈ rt_deps rt ->
  region_rank (rt_tasks rt') < region_rank (rt_tasks rt).
Proof. exact (topology_rank g tp r rt d rt'). Qed.
Print Assumptions C07_dependencies_acyclic.

(** Every well-formed graph has a topology. *)
Theorem C07_topology_exists (g : graph) :
  topological g ->
  (forall i s, feeds g i Forward s -> partitions_of g i = partitions_of g s) ->
  exists tp, build_topology g = Some tp.
Proof. exact (topology_total g). Qed.
Print Assumptions C07_topology_exists.

(** A storage-shuffle job: scan (2 tasks) =shuffle=> collect (3 tasks, materialised)
    => aggregate (3 tasks) =shuffle=> final (2 tasks). *)
Definition storage_job : graph :=
  [ Stage [] 2 3 0 Pipelined OnWorker;
    Stage [StageInput 0 Shuffle] 3 1 0 Blocking OnWorker;
    Stage [StageInput 1 Forward] 3 2 0 Pipelined OnWorker;
    Stage [StageInput 2 Shuffle] 2 1 0 Pipelined OnWorker ].

Example C07_storage_job_topology :
  build_topology storage_job =
  Some (Topology
    [ RegionTopo [(0,0);(0,1);(1,0);(1,1);(1,2)] [];
      RegionTopo [(2,0);(2,1);(2,2);(3,0);(3,1)] [0;0;0] ]).
Proof. vm_compute. done. Qed.

Ltac graph_cases :=
  repeat match goal with
  | H : _ ∈ _ :: _ |- _ => apply elem_of_cons in H as [H|H]; [simplify_eq/=|]
  | H : _ ∈ [] |- _ => by apply elem_of_nil in H
  | H : [] !! _ = Some _ |- _ => by rewrite lookup_nil in H
  | H : (_ :: _) !! ?s = Some _ |- _ => destruct s; simplify_eq/=
  end; try lia; try done.

Example C07_storage_job_hypotheses : topological storage_job /\ planner_shaped storage_job.
Proof.
  split.
  - intros s st inp Hs Hin. unfold storage_job in *. graph_cases.
  - right. intros i s1 m1 s2 m2 _ (st1 & H1 & Hin1) (st2 & H2 & Hin2).
    unfold storage_job in *. graph_cases.
Qed.

(** Two blocking stages (no pipelined exchange): one region per partition. *)
Example C07_sliced_example :
  build_topology [ Stage [] 2 1 0 Blocking OnWorker; Stage [StageInput 0 Forward] 2 1 0 Pipelined OnWorker ] =
  Some (Topology [ RegionTopo [(0,0)] []; RegionTopo [(0,1)] []; RegionTopo [(1,0)] [0]; RegionTopo [(1,1)] [1] ]).
Proof. vm_compute. done. Qed.

(** Without the planner's shape the regions can wait for each other for ever:
    stage 0 is pipelined into both 1 and 3, stage 1 is materialised for 2, and 2 for 3. *)
Theorem C07_acyclic_needs_planner_shape_refuted :
  exists g tp rt0 rt1,
    topological g /\ build_topology g = Some tp /\
    tp_regions tp !! 0 = Some rt0 /\ tp_regions tp !! 1 = Some rt1 /\
    1 ∈ rt_deps rt0 /\ 0 ∈ rt_deps rt1.
Proof.
  exists [ Stage [] 1 1 0 Pipelined OnWorker;
           Stage [StageInput 0 Shuffle] 1 1 0 Blocking OnWorker;
           Stage [StageInput 1 Shuffle] 1 1 0 Blocking OnWorker;
           Stage [StageInput 0 Shuffle; StageInput 2 Shuffle] 1 1 0 Pipelined OnWorker ].
  eexists _, _, _. split_and!.
  - intros s st inp Hs Hin. graph_cases.
  - vm_compute. reflexivity.
  - vm_compute. reflexivity.
  - vm_compute. reflexivity.
  - simpl. set_solver.
  - simpl. set_solver.
Qed.
Print Assumptions C07_acyclic_needs_planner_shape_refuted.
