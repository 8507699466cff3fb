(** Vocabulary for statements about job graphs. *)
From stdpp Require Import prelude list.
From Verif.Exec Require Import GraphModel.

(** job_graph/mod.rs:27-29: stages are listed in topological order. *)
Definition topological (g : graph) : Prop :=
  forall s st inp, g !! s = Some st -> inp ∈ st_inputs st -> in_stage inp < s.

(** (s, p) is a task of the job: one per partition of each stage. *)
Definition is_task (g : graph) (t : nat * nat) : Prop :=
  exists st, g !! t.1 = Some st /\ t.2 < st_partitions st.

(** Stage [i] is an input of stage [s] through [m]. *)
Definition feeds (g : graph) (i : nat) (m : input_mode) (s : nat) : Prop :=
  exists st, g !! s = Some st /\ StageInput i m ∈ st_inputs st.

(** [reads g t t']: running task [t] reads output of task [t'] -- the same
    partition for a one-to-one input, every partition otherwise. *)
Definition reads (g : graph) (t t' : nat * nat) : Prop :=
  exists m, feeds g t'.1 m t.1 /\ is_task g t' /\ (m = Forward -> t'.2 = t.2).

(** The output of a stage is handed over while the stage runs. *)
Definition pipelined (g : graph) (s : nat) : Prop :=
  exists st, g !! s = Some st /\ st_mode st = Pipelined.
Definition blocking (g : graph) (s : nat) : Prop :=
  exists st, g !! s = Some st /\ st_mode st = Blocking.

(** The shape of graphs made by the planner (job_graph/planner.rs): either every
    stage is pipelined (the Flight backend), or a pipelined stage has at most one
    consumer (the stages shared by several consumers are the materialised
    scalar subqueries, which are blocking). *)
Definition planner_shaped (g : graph) : Prop :=
  (forall s st, g !! s = Some st -> st_mode st = Pipelined) \/
  (forall i s1 m1 s2 m2, pipelined g i -> feeds g i m1 s1 -> feeds g i m2 s2 -> s1 = s2).

(** A pipelined exchange from producer [i] to consumer [s], and two stages joined by one. *)
Definition pedge (g : graph) (i s : nat) : Prop :=
  pipelined g i /\ exists m, feeds g i m s.
Definition linked (g : graph) (u v : nat) : Prop := pedge g v u \/ pedge g u v.

(** The rank of a region: the largest stage index in it. *)
Definition region_rank (ts : list (nat * nat)) : nat := max_list_with fst ts.
