(** Vocabulary for statements about jobs. *)
From stdpp Require Import prelude list.
From Verif.Exec Require Import TaskStateModel GraphModel GraphSpec JobModel.

(** A job that was accepted for graph [g] and then went through any sequence of
    task reports, refreshes, clean-ups and stops. *)
Definition reachable (max : nat) (g : graph) (j : job) : Prop :=
  exists j0 ops, new_job g = Some j0 /\ j = run_job max j0 ops.

(** The newest attempt of a task is in the given state. *)
Definition newest (j : job) (t : nat * nat) (s : task_state) : Prop :=
  exists l a, attempts j t = l ++ [a] /\ at_state a = s.

(** An attempt that has not ended. *)
Definition live (a : attempt) : Prop :=
  at_state a = TCreated \/ at_state a = TScheduled \/ at_state a = TRunning.

Definition has_live_attempt (j : job) (t : nat * nat) : Prop :=
  exists a, a ∈ attempts j t /\ live a.

(** The task has used all its attempts and the last one did not succeed. *)
Definition out_of_attempts (max : nat) (j : job) (t : nat * nat) : Prop :=
  max <= length (attempts j t) /\ (newest j t TFailed \/ newest j t TCanceled).

(** The task keys launched by a list of actions. *)
Definition launches (acts : list action) (k : task_key) : Prop :=
  exists r p es m, ScheduleTaskRegion r ∈ acts /\ (p, es) ∈ r /\ (k, m) ∈ es.

(** The tasks [t] and [t'] are in one scheduling region. *)
Definition together (j : job) (t t' : nat * nat) : Prop :=
  exists rt, rt ∈ tp_regions (jb_topo j) /\ t ∈ rt_tasks rt /\ t' ∈ rt_tasks rt.

(** The stages whose data a list of actions asks to remove, in order. *)
Definition removals (acts : list action) : list nat :=
  omap (fun a => match a with CleanUpJob (Some s) => Some s | _ => None end) acts.

(** The task keys of one task set, and of all task sets of a launched region. *)
Definition set_keys (es : list entry) : list task_key := map fst es.
Definition region_keys (tr : task_region) : list task_key := flat_map (fun pe => set_keys pe.2) tr.

(** Task [t] belongs to a stage nobody consumes; its output has [n] channels. *)
Definition is_final (g : graph) (t : nat * nat) (n : nat) : Prop :=
  exists st, g !! t.1 = Some st /\ st_channels st = n /\ t.2 < st_partitions st /\ (forall c m, ~ feeds g t.1 m c).

(** The streams a list of actions hands to the client, in order. *)
Definition handed (acts : list action) : list stream_key :=
  omap (fun a => match a with ExtendJobOutput k => Some k | _ => None end) acts.

(** The recorded causes of the failed attempts of a task, oldest first. *)
Definition failures (j : job) (t : nat * nat) : list nat :=
  omap (fun a => if decide (at_state a = TFailed) then at_cause a else None) (attempts j t).
